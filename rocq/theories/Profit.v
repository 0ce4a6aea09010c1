(** An agent only ever opens pools that are worth having: operating pools without potential profit is never better than delegating everything.
    This is what keeps the placeholders at the end of the ranking, and so keeps evaluating moves free of exceptions. *)
From Coq Require Import ZArith List Bool Arith Lia Permutation Sorted QArith Qcanon.
From Verif Require Import Num Py QcTac Rewards SortedKeyList World Stakeholder ListFacts SLFacts Inv Exec TotalExec Eval Step RewardFacts Greedy Spec ExactInv PropMove PropSearch TotalEval.
Import ListNotations.
Open Scope nat_scope.
Local Open Scope Qc_scope.

(** * the greedy distribution depends only on identifiers and room *)
Lemma greedy_ext rs (l l' : list (pool QcA)) : map (fun p => (p_id p, room (A := QcA) rs p)) l = map (fun p => (p_id p, room (A := QcA) rs p)) l' ->
  forall s d b, greedy rs l s d b = greedy rs l' s d b.
Proof.
  revert l'. induction l as [|p l IH]; intros [|p' l'] E s d b; try discriminate; [reflexivity|]. cbn [map] in E. assert (E1 := f_equal (option_map fst) (f_equal (@hd_error _) E)). assert (E2 := f_equal (option_map snd) (f_equal (@hd_error _) E)). assert (E3 := f_equal (@tl _) E). cbn [hd_error option_map fst snd tl] in E1, E2, E3.
  apply (f_equal (fun o => match o with Some x => x | None => 0%nat end)) in E1. apply (f_equal (fun o => match o with Some x => x | None => 0 end)) in E2. cbn [greedy].
  change (sub (pool_threshold rs (p_pledge p)) (p_stake p)) with (room (A := QcA) rs p). change (sub (pool_threshold rs (p_pledge p')) (p_stake p')) with (room (A := QcA) rs p'). rewrite <- E1, <- E2.
  destruct (ltb (room rs p) min_stake_unit); [now apply IH|]. destruct (ltb _ _); [reflexivity | now apply IH].
Qed.
Lemma greedy_allocations_ext rs (l l' : list (pool QcA)) s : map (fun p => (p_id p, room (A := QcA) rs p)) l = map (fun p => (p_id p, room (A := QcA) rs p)) l' -> greedy_allocations rs l s = greedy_allocations rs l' s.
Proof. intros E. unfold greedy_allocations. now rewrite (greedy_ext rs l l' E). Qed.

(** * sums over dictionaries *)
Lemma total_dom : forall d d' : dict Qc, NoDup (keys d) -> NoDup (keys d') -> (forall k v, get d k = Some v -> 0 <= v) -> (forall k v', get d' k = Some v' -> exists v, get d k = Some v /\ v' <= v) -> total d' <= total d.
Proof.
  intros d d'. revert d. induction d' as [|[k v'] d' IH]; intros d N N' P S.
  - change (total []) with 0. apply total_nonneg. intros k v J. apply (P k). now apply In_get.
  - destruct (S k v') as (v & G & L); [cbn; now rewrite Nat.eqb_refl|]. rewrite total_cons, (total_pop d k v G). inversion N' as [|? ? Nk N'']; subst.
    assert (total d' <= total (pop d k)); [|qlra]. apply IH; [now apply NoDup_pop | assumption | |].
    + intros k' x. rewrite get_pop by assumption. destruct (Nat.eqb k k'); [discriminate | apply P].
    + intros k' x G'. rewrite get_pop by assumption. destruct (Nat.eqb_spec k k') as [->|Ne].
      * exfalso. apply Nk. apply get_Some_key. eauto.
      * apply S. cbn. destruct (Nat.eqb_spec k' k); [congruence | assumption].
Qed.
Lemma le_by (a b e : Qc) : 0 <= e -> b - a = e -> a <= b.
Proof. intros H E. qlra. Qed.
Lemma share_mono (m x x' y y' : Qc) : m <= 1 -> 0 <= x -> x <= x' -> y <= y' -> Qcmax ((1 - m) * x * y) 0 <= Qcmax ((1 - m) * x' * y') 0.
Proof.
  intros M X L Y. apply Qcmax_lub; [|apply Qcmax_r]. destruct (Qclt_le_dec y 0) as [N|N].
  - eapply Qcle_trans; [|apply Qcmax_r]. assert (0 <= (1 - m) * x) by (apply Qcmult_nonneg; qlra). assert (H1 : 0 <= (1 - m) * x * (0 - y)) by (apply Qcmult_nonneg; qlra). apply (le_by _ _ _ H1). ring.
  - eapply Qcle_trans; [|apply Qcmax_l]. assert (A1 : 0 <= (1 - m) * (x' - x)) by (apply Qcmult_nonneg; qlra). assert (A2 : 0 <= (1 - m) * (x' - x) * y) by (apply Qcmult_nonneg; qlra).
    assert (A3 : 0 <= (1 - m) * x') by (apply Qcmult_nonneg; qlra). assert (A4 : 0 <= (1 - m) * x' * (y' - y)) by (apply Qcmult_nonneg; qlra).
    apply (le_by _ _ ((1 - m) * (x' - x) * y + (1 - m) * x' * (y' - y))); [qlra | ring].
Qed.
Lemma ratio_mono (a a' s s' : Qc) : 0 <= a -> 0 < s -> 0 < s' -> a * s' <= a' * s -> a / s <= a' / s'.
Proof.
  intros A S S' H. apply Qcdiv_le; [assumption|]. assert (E := Qcdiv_mul a' s' (Qc_pos_neq _ S')). set (q := a' / s') in *. clearbody q. subst a'. 
  destruct (Qclt_le_dec (q * s) a) as [L|L]; [|assumption]. exfalso. assert (Z : q * s * s' < a * s') by (now apply Qcmult_lt_compat_r). apply (Qclt_not_le _ _ Z). replace (q * s * s') with (q * s' * s) by ring. exact H.
Qed.

Section Value.
  Variables (m : nat) (al : nat -> nat -> option Qc) (ow : nat -> nat -> option nat).
  Notation sane := (sane m al ow).
  Implicit Types w : world QcA. Implicit Types new : strategy QcA. Implicit Types id r : nat.
  Variables (ag : agent QcA) (st : strategy QcA) (so : list nat -> list nat -> list nat).
  Hypothesis so_perm : forall c l, Permutation (so c l) l.
  Hypothesis Hst : a_strategy ag = Some st.
  Hypothesis Eal : forall id, al (a_id ag) id = get (s_alloc st) id.
  Hypothesis Eow : forall id, ow (a_id ag) id = get (s_owned st) id.
  Hypothesis Na : NoDup (keys (s_alloc st)).
  Hypothesis No : NoDup (keys (s_owned st)).
  Hypothesis Pr : a_profile ag <> Abstainer.
  Hypothesis Sp : 0 < a_stake ag.
  Notation uid := (a_id ag).

  (** what delegating [a] to pool [id] is worth to the agent *)
  Definition dval w id (a : Qc) : Qc := match get (w_pools w) id with Some r => match del_utility_pool w ag r a with Ok x => x | Err _ => 0 end | None => 0 end.
  Definition dvals w (d : dict Qc) : dict Qc := map (fun e => (fst e, dval w (fst e) (snd e))) d.
  Lemma dvals_keys w d : keys (dvals w d) = keys d.
  Proof. unfold keys, dvals. rewrite map_map. reflexivity. Qed.
  Lemma dvals_get w d k : get (dvals w d) k = option_map (dval w k) (get d k).
  Proof. induction d as [|[k' v] d IH]; cbn; [reflexivity|]. destruct (Nat.eqb_spec k k'); [now subst | assumption]. Qed.
  Lemma del_sum w d : forall (u u' : Qc), foldM (fun u e => let '(id, a) := e in
                    match get (w_pools w) id with
                    | None => Ok u
                    | Some r => let! du := del_utility_pool w ag r a in Ok (add (a := QcA) u du)
                    end) d u = Ok u' -> u' = u + total (dvals w d).
  Proof.
    induction d as [|[id a] d IH]; intros u u' H; cbn [foldM] in H.
    - injection H as <-. change (total (dvals w [])) with 0. now rewrite Qcplus_0_r.
    - apply bind_ok in H as (u1 & H1 & H). change (dvals w ((id, a) :: d)) with ((id, dval w id a) :: dvals w d). rewrite total_cons. specialize (IH u1 u' H). rewrite IH. unfold dval at 1.
      destruct (get (w_pools w) id) as [r|].
      + apply bind_ok in H1 as (x & Hx & H1). rewrite Hx. injection H1 as <-. cbn [add QcA]. ring.
      + injection H1 as <-. ring.
  Qed.
  (** the value of a delegation, spelled out *)
  Lemma dval_eq w id r p : sane w -> get (w_pools w) id = Some r -> get (w_heap w) r = Some p ->
    exists n c, 0 <= c /\ (a_profile ag = NonMyopic -> 0 < n) /\ (a_profile ag = Myopic -> 0 < c) /\ forall a, 0 <= a ->
      let s := match a_profile ag with NonMyopic => Qcmax n (c + a) | _ => c + a end in
      dval w id a = Qcmax ((1 - p_margin p) * (a / s) * (reward (w_rss w) (p_pledge p) s - p_cost p)) 0.
  Proof.
    intros S G Gp. destruct (reg_sound m al ow w id r S G) as (p' & P1 & P2 & P3 & P4 & P5). rewrite Gp in P1. injection P1 as <-. assert (R := sn_rss _ _ _ _ S). destruct (sound_stake _ _ P3) as [P6 P7].
    destruct (nonmyopic_ranked m al ow w id r S G) as (n & En & Pn).
    set (prev := match get (s_alloc st) id with Some v => v | None => 0 end). exists n, (p_stake p - prev).
    assert (C : 0 < p_stake p - prev). { unfold prev. rewrite <- Eal, <- P5. destruct (get (p_delegators p) uid) as [v|] eqn:Ev; [assert (Z := sound_without _ _ _ _ P3 Ev); qlra|]. qlra. }
    split; [qlra|]. split; [now intros|]. split; [now intros|]. intros a Ha. unfold dval. rewrite G. unfold del_utility_pool, the_strategy. rewrite Hst. cbn [of_option bind]. unfold deref. rewrite Gp. cbn [of_option bind]. rewrite P2.
    change (match get (s_alloc st) id with Some v => v | None => zero end) with prev. cbn [add sub QcA].
    destruct (a_profile ag); [| |contradiction].
    - rewrite En. cbn [bind]. rewrite pmax_max. cbv zeta. rewrite (del_util_ok _ R); [reflexivity|]. apply Qc_pos_neq. eapply Qclt_le_trans; [exact Pn | apply Qcmax_l].
    - cbn [bind]. cbv zeta. rewrite (del_util_ok _ R); [reflexivity|]. apply Qc_pos_neq. qlra.
  Qed.
  Lemma dval_nonneg w id a : sane w -> 0 <= a -> 0 <= dval w id a.
  Proof.
    intros S Ha. destruct (get (w_pools w) id) as [r|] eqn:G; [|unfold dval; rewrite G; apply Qcle_refl]. destruct (reg_sound m al ow w id r S G) as (p & P1 & _).
    destruct (dval_eq w id r p S G P1) as (n & c & _ & _ & _ & E). rewrite (E a Ha). apply Qcmax_r.
  Qed.
  Lemma dval_mono w id a a' : sane w -> 0 <= a -> a <= a' -> dval w id a <= dval w id a'.
  Proof.
    intros S Ha La. destruct (get (w_pools w) id) as [r|] eqn:G; [|unfold dval; rewrite G; apply Qcle_refl]. destruct (reg_sound m al ow w id r S G) as (p & P1 & _ & P3 & _). destruct (sound_stake _ _ P3) as [P6 _].
    destruct (dval_eq w id r p S G P1) as (n & c & C & Pn & Pc & E). rewrite (E a Ha), (E a') by qlra. assert (R := sn_rss _ _ _ _ S). assert (Mg := pf_margin _ _ _ _ (proj1 P3)).
    assert (Ac : 0 <= (a' - a) * c) by (apply Qcmult_nonneg; qlra).
    assert (Gen : forall s s', 0 < s -> 0 < s' -> s <= s' -> a * s' <= a' * s -> Qcmax ((1 - p_margin p) * (a / s) * (reward (w_rss w) (p_pledge p) s - p_cost p)) 0 <= Qcmax ((1 - p_margin p) * (a' / s') * (reward (w_rss w) (p_pledge p) s' - p_cost p)) 0).
    { intros s s' H1 H2 H3 H4. apply share_mono; [apply Mg | now apply Qcdiv_nonneg | now apply ratio_mono |]. assert (reward (w_rss w) (p_pledge p) s <= reward (w_rss w) (p_pledge p) s'); [apply reward_mono_stake; [assumption | qlra | assumption]|]. qlra. }
    destruct (a_profile ag) eqn:Ep; [| |contradiction].
    - specialize (Pn eq_refl). assert (N1 : n <= Qcmax n (c + a)) by apply Qcmax_l. assert (N2 : n <= Qcmax n (c + a')) by apply Qcmax_l. apply Gen; [qlra | qlra | apply Qcmax_lub; [apply Qcmax_l | eapply Qcle_trans; [|apply Qcmax_r]; qlra]|].
      assert (M : c + a <= Qcmax n (c + a)) by apply Qcmax_r.
      destruct (Qclt_le_dec n (c + a')) as [L|L].
      + replace (Qcmax n (c + a')) with (c + a') by (symmetry; unfold Qcmax; qcase; intros; qlra). assert (Q1 : 0 <= a' * (Qcmax n (c + a) - (c + a))) by (apply Qcmult_nonneg; qlra). apply (le_by _ _ (a' * (Qcmax n (c + a) - (c + a)) + (a' - a) * c)); [qlra | ring].
      + replace (Qcmax n (c + a')) with n by (symmetry; unfold Qcmax; qcase; intros; qlra). assert (Q1 : 0 <= (a' - a) * n) by (apply Qcmult_nonneg; qlra). assert (Q2 : 0 <= a' * (Qcmax n (c + a) - n)) by (apply Qcmult_nonneg; qlra). apply (le_by _ _ ((a' - a) * n + a' * (Qcmax n (c + a) - n))); [qlra | ring].
    - specialize (Pc eq_refl). apply Gen; [qlra | qlra | qlra | apply (le_by _ _ _ Ac); ring].
  Qed.

  (** the same pools are worth the same after other possibilities have been considered *)
  Lemma stake_same w w2 id r p p2 : sane w -> sane w2 -> get (w_pools w) id = Some r -> get (w_pools w2) id = Some r -> get (w_heap w) r = Some p -> get (w_heap w2) r = Some p2 -> p_pledge p2 = p_pledge p -> p_stake p2 = p_stake p.
  Proof.
    intros S S2 G G2 H H2 E. destruct (reg_sound m al ow w id r S G) as (q & Q1 & _ & (F & N & V) & _ & D). rewrite H in Q1. injection Q1 as <-.
    destruct (reg_sound m al ow w2 id r S2 G2) as (q & Q1 & _ & (F2 & N2 & _) & _ & D2). rewrite H2 in Q1. injection Q1 as <-.
    rewrite (pf_stake _ _ _ _ F), (pf_stake _ _ _ _ F2), E. f_equal. apply total_ext; try assumption; [intros k; now rewrite D, D2|]. intros k v J. apply Qcle_trans with MIN; [discriminate|]. apply ltb_MIN_false. now apply (V k).
  Qed.
  Lemma dval_same w w2 id a : sane w -> sane w2 -> efr uid w w2 -> dval w2 id a = dval w id a.
  Proof.
    intros S S2 ((E1 & E2 & E3 & E4 & E5 & E6 & E7 & E8 & E9 & _) & _ & _ & Es & _). unfold dval. rewrite E8. destruct (get (w_pools w) id) as [r|] eqn:G; [|reflexivity].
    assert (G2 : get (w_pools w2) id = Some r) by (now rewrite E8). destruct (reg_sound m al ow w id r S G) as (p & P1 & P2 & _). destruct (Es r p P1) as (p2 & P1' & St).
    assert (Ek : p_stake p2 = p_stake p) by (apply (stake_same w w2 id r); try assumption; now rewrite St).
    assert (Nm : non_myopic_stake w2 r (w_rank w2) = non_myopic_stake w r (w_rank w)).
    { unfold non_myopic_stake, deref. rewrite P1, P1', E9. cbn [of_option bind]. assert (Key : pool_key p2 = pool_key p) by (rewrite St; reflexivity). rewrite Key. destruct (sl_index (pool_key p) (Some r) (w_rank w)) as [i|]; [|reflexivity]. cbn [bind].
      assert (Em : mapM (fun e => match e with None => Err AttributeError | Some r' => let! q := of_option Dangling (get (w_heap w2) r') in Ok (pool_threshold (w_rss w2) (p_pledge q)) end) (firstn i (sl_elems (w_rank w))) =
                   mapM (fun e => match e with None => Err AttributeError | Some r' => let! q := of_option Dangling (get (w_heap w) r') in Ok (pool_threshold (w_rss w) (p_pledge q)) end) (firstn i (sl_elems (w_rank w)))).
      { apply mapM_ext. intros e J. assert (J' : In e (sl_elems (w_rank w))) by (rewrite <- (firstn_skipn i); apply in_app_iff; now left).
        destruct (rank_elems m al ow w _ _ e S (i_rank _ _ _ _ _ _ (sn_inv _ _ _ _ S)) J') as [->|(r' & id' & q & -> & _ & Gq & _)]; [reflexivity|]. destruct (Es r' q Gq) as (q2 & Gq2 & Sq). rewrite Gq, Gq2, E1, Sq. reflexivity. }
      rewrite Em, E1, E6, Ek. assert (Epl : p_pledge p2 = p_pledge p) by (now rewrite St). rewrite Epl. reflexivity. }
    assert (Du : del_utility_pool w2 ag r a = del_utility_pool w ag r a); [|now rewrite Du].
    unfold del_utility_pool. destruct (a_profile ag); [| |reflexivity].
    - destruct (the_strategy ag) as [s0|]; [|reflexivity]. cbn [bind]. unfold deref. rewrite P1, P1'. cbn [of_option bind]. rewrite Nm, Ek, E1, St. reflexivity.
    - destruct (the_strategy ag) as [s0|]; [|reflexivity]. cbn [bind]. unfold deref. rewrite P1, P1'. cbn [of_option bind]. rewrite Ek, E1, St. reflexivity.
  Qed.
  Lemma dvals_same w w2 d : sane w -> sane w2 -> efr uid w w2 -> dvals w2 d = dvals w d.
  Proof. intros S S2 E. unfold dvals. apply map_ext. intros [id a]. cbn. now rewrite (dval_same w w2). Qed.

  (** pools without potential profit bring their operator nothing *)
  Lemma losses w (f : nat -> res Qc) refs : (forall r x, In r refs -> f r = Ok x -> x <= 0) -> forall (u u' : Qc), foldM (fun (u : T QcA) r => let! x := f r in Ok (add (a := QcA) u x)) refs u = Ok u' -> u' <= u.
  Proof.
    induction refs as [|r refs IH]; intros H u u' E; cbn [foldM] in E; [injection E as <-; apply Qcle_refl|]. apply bind_ok in E as (u1 & E1 & E). apply bind_ok in E1 as (x & Ex & E1). injection E1 as <-.
    apply IH in E; [|intros; eapply H; [right; eassumption | assumption]]. assert (X := H r x (or_introl eq_refl) Ex). cbn [add QcA] in E. qlra.
  Qed.
  Lemma loss w r (s : Qc) p (x : Qc) : rss_ok (w_rss w) -> get (w_heap w) r = Some p -> sound_pool (w_rss w) p -> p_pp p <= 0 -> pool_operator_utility w s p = Ok x -> x <= 0.
  Proof.
    intros R G S P H. unfold pool_operator_utility in H. destruct (Qc_eq_dec s 0) as [->|Ns].
    - exfalso. unfold operator_utility in H. apply bind_ok in H as (y & _ & H). apply bind_ok in H as (z & Hz & _). unfold pdiv in Hz. cbn [eqb QcA zero] in Hz. destruct (Qc_eqb_spec 0 0); [discriminate | congruence].
    - rewrite (op_util_ok _ R) in H by assumption. injection H as <-. rewrite operator_reward_eq. assert (L := sound_reward_le (w_rss w) p s R S).
      destruct (Qc_leb_spec (reward (w_rss w) (p_pledge p) s - p_cost p) 0) as [A|A]; [assumption|]. exfalso. apply A. qlra.
  Qed.
  Lemma op_loss w new (x : Qc) : rss_ok (w_rss w) -> (forall r, In r (values (s_owned new)) -> exists p, get (w_heap w) r = Some p /\ sound_pool (w_rss w) p /\ p_pp p <= 0) -> op_utility_strategy w ag new = Ok x -> x <= 0.
  Proof.
    intros R H E. unfold op_utility_strategy in E. destruct (a_profile ag); [| |discriminate].
    - apply bind_ok in E as (oth & _ & E). apply bind_ok in E as (t0 & _ & E). apply bind_ok in E as (t1 & _ & E).
      rewrite (foldM_ext _ (fun (u : T QcA) r => let! x := (let! p := deref w r in let! s := non_myopic_stake w r t1 in pool_operator_utility w s p) in Ok (add (a := QcA) u x))) in E.
      + apply losses in E; [exact E | assumption|]. intros r y J Hy. destruct (H r J) as (p & G & S & P). unfold deref in Hy. rewrite G in Hy. cbn [of_option bind] in Hy. apply bind_ok in Hy as (s & _ & Hy). now apply (loss w r s p).
      + intros u r J. destruct (deref w r); [|reflexivity]. cbn [bind]. destruct (non_myopic_stake w r t1); reflexivity.
    - rewrite (foldM_ext _ (fun (u : T QcA) r => let! x := (let! p := deref w r in pool_operator_utility w (p_stake p) p) in Ok (add (a := QcA) u x))) in E.
      + apply losses in E; [exact E | assumption|]. intros r y J Hy. destruct (H r J) as (p & G & S & P). unfold deref in Hy. rewrite G in Hy. cbn [of_option bind] in Hy. now apply (loss w r (p_stake p) p).
      + intros u r J. destruct (deref w r); reflexivity.
  Qed.

  (** an operator's move: pools are made, then what is left is delegated *)
  Lemma operator_split w n ms w1 d w' new : sane w -> (1 <= n)%Z -> Forall (margin_src (A := QcA) nonneg) ms -> length ms = Z.to_nat n -> pools_to_keep so w ag n = Ok (w1, d) -> find_operator_move w1 ag n d ms = Ok (w', new) ->
    exists w3 (pledge : Qc), hext w w3 /\ agent_pledge_per_pool w ag n = Ok pledge /\ find_delegation_for_operator w3 ag (pledge * Qc_ofZ n) = Ok (w', s_alloc new).
  Proof.
    intros S Hn Fm Lm Hk H. assert (I := sn_inv _ _ _ _ S). assert (R := sn_rss _ _ _ _ S). assert (Fr : fresh_ok w) by exact (i_fresh _ _ _ _ _ _ I).
    assert (OF := owned_fresh NPF True m al ow ag st Eow w I).
    destruct (pools_to_keep_spec so so_perm w ag st n w1 d Fr Hst No) as (X1 & Es1 & Nd & Inc & Len & Hd); [intros id r G; now destruct (OF id r G) | exact Hk |].
    assert (Rss1 : w_rss w1 = w_rss w) by apply X1. unfold find_operator_move in H. apply bind_ok in H as (pledge & Hp & H). apply bind_ok in H as (cost & Hc & H).
    change (fun (acc : world QcA * nat) (e : nat * nat) => let '(w, i) := acc in let! p := deref w (snd e) in let! p' := adjust_pool w ag pledge cost ms i p in Ok (store w (snd e) p', Datatypes.S i)) with (adjust_one ag pledge cost ms) in H.
    change (fun (acc : world QcA * dict nat) (i : nat) => let '(w, d) := acc in let '(w', id) := next_pool_id w in let! p := draft_pool w' ag pledge cost ms i id in
      let '(w'', r) := alloc w' p in Ok (w'', set d id r)) with (draft_one ag pledge cost ms) in H.
    apply bind_ok in H as ([w2 i2] & H2 & H). apply bind_ok in H as ([w3 d3] & H3 & H). apply bind_ok in H as ([w4 a4] & H4 & H). injection H as <- <-. cbn [fst] in H3.
    assert (Nsnd : NoDup (map snd d)).
    { assert (Eid : forall id r, In (id, r) d -> exists p, get (w_heap w1) r = Some p /\ p_id p = id).
      { intros id r J. apply In_get in J; [|assumption]. destruct (Hd id r J) as (r0 & p & J1 & J2 & J3 & J4). exists p. split; [assumption|]. destruct (OF _ _ J1) as (_ & _ & p' & G' & K1 & _). rewrite J2 in G'. injection G' as <-. exact K1. }
      clear -Nd Eid. induction d as [|[id r] d IH]; [constructor|]. cbn in Nd. apply NoDup_cons_iff in Nd as [N1 N2]. cbn. constructor.
      - intros J. apply N1. apply in_map_iff in J as ([id' r'] & E & J). cbn in E. subst r'. destruct (Eid id r (or_introl eq_refl)) as (p & J3 & J4). destruct (Eid id' r (or_intror J)) as (p1 & J3' & J4'). replace id with id' by congruence. now apply (in_map fst) in J.
      - apply IH; [assumption|]. intros; apply Eid; now right. }
    destruct (adjust_all_spec (A := QcA) nonneg w ag pledge cost ms Fm d w1 0 w2 i2 Nsnd X1) as (X2 & En2 & Es2 & _ & Hadj); [intros id r J; apply In_get in J; [|assumption]; now destruct (Hd id r J) as (? & ? & ? & ? & ? & ?) | rewrite Lm, Len by lia; lia | exact H2 |].
    exists w3, pledge. split; [eapply draft_all_hext; eassumption|]. split; [|exact H4]. unfold agent_pledge_per_pool in Hp |- *. now rewrite <- Rss1.
  Qed.
End Value.

(** * the decision *)
Section Decision.
  Variable so : list nat -> list nat -> list nat.
  Hypothesis SO : set_order so.
  Notation egood := (egood False True True).
  Implicit Types w : world QcA. Implicit Types id r : nat.

  Lemma egood_efr m w w2 uid : egood m w -> Inv NPF True m (al_of w) (ow_of w) w2 -> efr uid w w2 -> egood m w2.
  Proof.
    intros [I AO Hs Hn] I2 ((E1 & E2 & E3 & E4 & E5 & E6 & E7 & E8 & E9 & _) & _). constructor.
    - eapply Inv_ext; [| |exact I2]; intros; unfold al_of, ow_of; now rewrite E7.
    - unfold agents_ok. now rewrite E7.
    - now rewrite E5.
    - rewrite E7, E1. exact Hn.
  Qed.
  Lemma offers_same w w3 uid l : same_state w w3 -> (forall r, In (Some r) l -> exists id p, get (w_pools w) id = Some r /\ get (w_heap w) r = Some p) -> offers w3 uid l = offers w uid l.
  Proof.
    intros (Ep & Sp & _ & _ & Er & _) H. unfold offers. induction l as [|e l IH]; [reflexivity|]. cbn [flat_map]. rewrite IH by (intros; apply H; now right). f_equal.
    destruct e as [r|]; [|reflexivity]. destruct (H r (or_introl eq_refl)) as (id & p & G & Gp). destruct (Sp id p) as (p3 & (r3 & G3 & Gp3) & (S1 & S2 & S3 & S4 & S5 & S6 & S7 & S8 & S9 & S10)); [now exists r|].
    rewrite Ep, G in G3. injection G3 as <-. rewrite Gp, Gp3, S1, S2, S3, S4, S7, Er. unfold delegated. now rewrite S10.
  Qed.
  Lemma alloc_mono m w w3 uid ag st (s s' : Qc) w1 del w4 del' : egood m w -> plays w uid ag st -> Inv NPF True m (al_of w) (ow_of w) w3 -> efr uid w w3 -> s' <= s ->
    find_delegation_move w ag s = Ok (w1, del) -> find_delegation_move w3 ag s' = Ok (w4, del') ->
    forall id v', get (s_alloc del') id = Some v' -> exists v, get (s_alloc del) id = Some v /\ v' <= v.
  Proof.
    intros G P I3 E L H H' id v' J. destruct (Qclt_le_dec s' MIN) as [Ls|Ls].
    { unfold find_delegation_move in H'. rewrite (proj2 (ltb_MIN s') Ls) in H'. injection H' as _ <-. discriminate. }
    assert (G3 := egood_efr m w w3 uid G I3 E). assert (Ea : w_agents w3 = w_agents w) by apply E. assert (P3 : plays w3 uid ag st) by (unfold plays; now rewrite Ea).
    assert (SS := inv_same False True True m w w3 uid G I3 E).
    destruct (delegation_greedy False True True m w w1 uid ag st s del G P (Qcle_trans _ _ _ Ls L) H) as (rk & pools & R1 & _ & N1 & O1 & A1).
    destruct (delegation_greedy False True True m w3 w4 uid ag st s' del' G3 P3 Ls H') as (rk3 & pools3 & R3 & _ & N3 & O3 & A3).
    assert (Erk : sl_elems rk3 = sl_elems rk). { destruct SS as (_ & _ & S1 & S2 & _). unfold rankings in R1, R3. destruct (a_profile ag); [| |discriminate]; injection R1 as <-; injection R3 as <-; assumption. }
    assert (Er : w_rss w3 = w_rss w) by apply E.
    rewrite Erk, (offers_same w w3 uid _ SS) in O3.
    - rewrite Er in O3, A3. rewrite O3 in O1. rewrite A3, (greedy_allocations_ext (w_rss w) pools3 pools s' O1) in J. rewrite A1. now apply (greedy_mono (w_rss w) pools s' s id v').
    - intros r Jr. assert (I := g_inv _ _ _ _ _ G). destruct (rank_refs _ _ _ _ _ _ _ _ I R1) as (K & R). apply in_map_iff in Jr as ([k e] & Ee & Jr). cbn in Ee. subst e. apply (rank_ok_elem _ _ _ _ _ _ _ R) in Jr.
      apply In_values in Jr as (id' & Jr); [|apply (i_nd _ _ _ _ _ _ I)]. destruct (i_reg _ _ _ _ _ _ I _ _ Jr) as (p & Gp & _). eauto.
  Qed.

  (** what makes a state safe *)
  Record safe (m : nat) w : Prop := {
    sf_good : egood m w;
    sf_sane : sane m (al_of w) (ow_of w) w
  }.
  Theorem chosen_pools_profit m w uid ag st w1 del (du : Qc) w2 (ou : Qc) op : safe m w -> plays w uid ag st -> a_profile ag <> Abstainer ->
    find_delegation_move w ag (a_stake ag) = Ok (w1, del) -> expected_utility w1 ag del = Ok du -> choose_pool_strategy so w1 ag = Ok (w2, ou, Some op) -> du < ou ->
    forall id r, get (s_owned op) id = Some r -> exists p, get (w_heap w2) r = Some p /\ 0 < p_pp p.
  Proof.
    intros [G S] [P1 P2] Pr Hd Hdu Hc Lt id0 r0 J0. assert (I := g_inv _ _ _ _ _ G). destruct (proj2 (g_ok _ _ _ _ _ G) uid ag P1) as [Aid Ast]. destruct (Ast st P2) as [Na No].
    assert (Eal : forall id, al_of w (a_id ag) id = get (s_alloc st) id) by (intros; unfold al_of; now rewrite Aid, P1, P2).
    assert (Eow : forall id, ow_of w (a_id ag) id = get (s_owned st) id) by (intros; unfold ow_of; now rewrite Aid, P1, P2).
    assert (Sp : 0 < a_stake ag) by (destruct (g_new _ _ _ _ _ G uid ag P1) as [_ [_ Z]]; now apply Z).
    destruct (delegation_move_spec QcA_ord MP_Qc nonneg NPF True (E_NP_upd False True) E_TG_z m (al_of w) (ow_of w) ag st P2 Eal Na w (a_stake ag) w1 del I Hd) as (I1 & E1 & _ & _ & O1 & A1 & _).
    assert (S1 := sane_efr _ _ _ ag w w1 S I1 E1). assert (R := sn_rss _ _ _ _ S). assert (Er1 : w_rss w1 = w_rss w) by apply E1.
    unfold choose_pool_strategy in Hc. apply bind_ok in Hc as ([t ms] & Es & Hc).
    set (u := fun t => match margins_and_utility w1 ag t with Ok (_, x) => x | Err _ => zero (a := QcA) end).
    assert (D : defined_on (margins_and_utility w1 ag) (r_k (w_rss w1)) u). { intros t' Ht. destruct (margins_total m _ _ ag st P2 Eow No Pr Sp w1 t' S1 Ht) as (ms' & x & E). exists ms'. unfold u. now rewrite E. }
    destruct (C21_search_ends_at_a_local_maximum QcA QcA_ord _ _ _ u (sn_k _ _ _ _ S1) D) as (t' & ms' & Es' & Ht & Em & _). assert (Et : t' = t /\ ms' = ms) by (rewrite Es in Es'; injection Es' as -> ->; auto). destruct Et as [-> ->]. clear Es'.
    destruct (Z.ltb_spec 0 t); [|lia]. apply (margins_src (A := QcA) nonneg NPF True E_TG_d E_TG_z (E_TG_np False True) m (al_of w) (ow_of w)) in Em as [Fm Lm]; [|assumption].
    apply bind_ok in Hc as ([wk d] & Hk & Hc). apply bind_ok in Hc as ([w2' new] & Ho & Hc). apply bind_ok in Hc as (x & Hx & Hc). injection Hc as <- -> ->.
    destruct (operator_split m _ _ ag st so SO P2 Eow No w1 t ms wk d w2' op S1 ltac:(lia) Fm ltac:(apply Lm; lia) Hk Ho) as (w3 & pledge & X3 & Hp & Hf).
    destruct (operator_move_spec QcA_ord MP_Qc so SO nonneg NPF True (E_NP_upd False True) E_TG_z m _ _ ag st P2 Eal Eow Na No w1 t wk d ms w2' op I1 ltac:(lia) Fm ltac:(apply Lm; lia) Hk Ho) as (I2 & E2 & (pledge' & cost & Hp' & Hco & Nd & _ & Hm & Ha & _)).
    rewrite Hp in Hp'. injection Hp' as <-. assert (S2 := sane_efr _ _ _ ag w1 w2' S1 I2 E2). assert (Er2 : w_rss w2' = w_rss w1) by apply E2.
    destruct (Hm id0 r0 J0) as (_ & p0 & K1 & _ & _ & K2 & _). exists p0. split; [assumption|]. destruct (Qclt_le_dec 0 (p_pp p0)) as [L|L]; [assumption|]. exfalso.
    (* no pool of the move is worth having *)
    assert (Bad : forall r, In r (values (s_owned op)) -> exists p, get (w_heap w2') r = Some p /\ sound_pool (w_rss w2') p /\ p_pp p <= 0).
    { intros r J. apply In_values in J as (id & J); [|assumption]. destruct (made_sound m _ _ ag st Eow Sp w1 w2' t pledge cost id r S1 ltac:(lia) Hp Hco Er2 (Hm id r J)) as (p & G' & Sd & _). exists p. split; [assumption|]. split; [assumption|].
      destruct (Hm id r J) as (_ & p' & G'' & _ & _ & K3 & _). rewrite G' in G''. injection G'' as <-. destruct K2 as (_ & _ & _ & K2 & _). destruct K3 as (_ & _ & _ & K3 & _). rewrite K2 in K3. apply Ok_inj in K3. rewrite <- K3. assumption. }
    (* so the move is worth no more than its delegations *)
    assert (Vo : ou <= total (dvals ag w2' (s_alloc op))).
    { unfold expected_utility in Hx. apply bind_ok in Hx as (u0 & H0 & Hx). apply del_sum in Hx. assert (U0 : u0 <= 0). { destruct (s_owned op) as [|e0 l0] eqn:Eo; [injection H0 as <-; apply Qcle_refl|]. rewrite <- Eo in *. apply bind_ok in H0 as (y & Hy & H0). injection H0 as <-. assert (Ly : y <= 0) by (apply (op_loss ag Pr w2' op y); [now rewrite Er2, Er1 | assumption | assumption]). cbn [add zero QcA]. qlra. } rewrite Hx. qlra. }
    assert (Vd : du = total (dvals ag w1 (s_alloc del))).
    { unfold expected_utility in Hdu. rewrite O1 in Hdu. cbn [bind] in Hdu. apply del_sum in Hdu. rewrite Hdu. cbn [zero QcA]. ring. }
    rewrite (dvals_same m _ _ ag Pr w1 w2' _ S1 S2 E2) in Vo.
    assert (Le : total (dvals ag w1 (s_alloc op)) <= total (dvals ag w1 (s_alloc del))); [|qlra].
    assert (Np := alloc_ok_pos ag w1 _ A1). assert (Npo := alloc_ok_pos ag w2' _ Ha).
    apply total_dom; rewrite ?dvals_keys; [apply A1 | apply Ha | |].
    - intros k v J. rewrite dvals_get in J. change (T QcA) with Qc in *. destruct (get (V := Qc) (s_alloc del) k) as [a|] eqn:Ek; [|discriminate]. injection J as <-. apply (dval_nonneg m _ _ ag st P2 Eal Pr w1 k a S1). apply (Np k). now apply get_In.
    - intros k v J. rewrite dvals_get in J. change (T QcA) with Qc in *. destruct (get (V := Qc) (s_alloc op) k) as [a|] eqn:Ek; [|discriminate]. injection J as <-. rewrite dvals_get.
      assert (Dom : exists v, get (s_alloc del) k = Some v /\ a <= v).
      { unfold find_delegation_for_operator in Hf. destruct (ltb (a := QcA) zero (sub (a_stake ag) (pledge * Qc_ofZ t))) eqn:El; [|injection Hf as _ Hf; rewrite <- Hf in Ek; discriminate].
        apply bind_ok in Hf as ([w4 del'] & Hf & Hf'). injection Hf' as -> Hf'. rewrite <- Hf' in Ek. rewrite Aid in E1, E2.
        assert (Pp : 0 < pledge). { destruct (pledge_ok (w_rss w1) ltac:(now rewrite Er1) t (a_stake ag)) as (z & Hz & Pz); [lia | assumption|]. unfold agent_pledge_per_pool in Hp. rewrite Hp in Hz. now injection Hz as ->. }
        assert (Q : 0 <= pledge * Qc_ofZ t) by (apply Qcmult_nonneg; [now apply Qclt_le_weak | apply Qclt_le_weak, Qc_ofZ_pos; lia]).
        assert (I3 : Inv NPF True m (al_of w) (ow_of w) w3) by (apply (hext_inv NPF True m _ _ w1 w3); [exact I1 | exact X3]).
        assert (Fr1 : fresh_ok w1) by exact (i_fresh _ _ _ _ _ _ I1). assert (E3 : efr uid w w3) by (eapply efr_trans; [exact E1 | now apply hext_efr]).
        apply (alloc_mono m w w3 uid ag st (a_stake ag) (sub (a := QcA) (a_stake ag) (pledge * Qc_ofZ t)) w1 del w2' del' G (conj P1 P2) I3 E3) with (id := k) (v' := a); [cbn [sub QcA]; qlra | assumption | assumption | assumption]. }
      destruct Dom as (v & Ev & Lv). exists (dval ag w1 k v). split; [exact (f_equal (option_map (dval ag w1 k)) Ev)|]. apply (dval_mono m _ _ ag st P2 Eal Pr w1 k a v S1); [|assumption]. apply (Npo k). now apply get_In.
  Qed.
End Decision.
