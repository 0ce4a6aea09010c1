(** Which exceptions a move can raise under every activation order: evaluating and carrying out moves fails only in a look-up of a dictionary. *)
From Coq Require Import ZArith List Bool Arith Lia Permutation Sorted QArith Qcanon.
From Verif Require Import Num Py QcTac Rewards SortedKeyList World Stakeholder ListFacts SLFacts Inv Exec TotalExec Eval Step RewardFacts Greedy Spec ExactInv PropMove PropSearch TotalEval Profit Concave.
From Verif Require Import Sched Sim Init Reach Frame Persons AnyOrder AnyBooks PropBooks AnyRank.
Import ListNotations.
Open Scope nat_scope.
Local Open Scope Qc_scope.

Section Errors.
  Definition allowed (e : exn) : Prop := e = KeyError.
  (** a computation that returns a value with [Q] or raises KeyError *)
  Definition kp {X} (x : res X) (Q : X -> Prop) : Prop := match x with Ok v => Q v | Err e => allowed e end.
  Lemma kp_bind {X Y} (x : res X) (k : X -> res Y) P Q : kp x P -> (forall v, x = Ok v -> P v -> kp (k v) Q) -> kp (bind x k) Q.
  Proof. destruct x as [v|e]; cbn; auto. Qed.
  Lemma kp_weak {X} (x : res X) (P Q : X -> Prop) : kp x P -> (forall v, x = Ok v -> P v -> Q v) -> kp x Q.
  Proof. destruct x as [v|e]; cbn; auto. Qed.
  Lemma kp_ok {X} (x : res X) (v : X) (Q : X -> Prop) : x = Ok v -> Q v -> kp x Q.
  Proof. now intros ->. Qed.
  Lemma kp_key {X} (o : option X) (Q : X -> Prop) : (forall v, o = Some v -> Q v) -> kp (of_option KeyError o) Q.
  Proof. destruct o; cbn; [auto | reflexivity]. Qed.
  Lemma kp_foldM {B Y} (f : B -> Y -> res B) (P : B -> Prop) l : forall a, P a -> (forall x y, In y l -> P x -> kp (f x y) P) -> kp (foldM f l a) P.
  Proof.
    induction l as [|y l IH]; intros a Pa H; cbn [foldM]; [exact Pa|]. eapply kp_bind; [apply H; [now left | exact Pa]|]. intros b _ Pb. apply IH; [exact Pb|]. intros; apply H; [now right | assumption].
  Qed.
  Lemma kp_mapM {X Y} (f : X -> res Y) l : (forall x, In x l -> kp (f x) (fun _ => True)) -> kp (mapM f l) (fun _ => True).
  Proof.
    induction l as [|x l IH]; intros H; cbn [mapM]; [exact I|]. eapply kp_bind; [apply H; now left|]. intros y _ _. eapply kp_bind; [apply IH; intros; apply H; now right|]. intros ys _ _. exact I.
  Qed.

  Variable so : list nat -> list nat -> list nat.
  Hypothesis so_perm : set_order so.
  Variable m : nat.
  Variable rs : rss QcA.
  Hypothesis R : rss_ok rs.
  Hypothesis Rcip : r_scheme rs = CIP50 -> 0 < r_a0 rs.
  Hypothesis Rk : (1 <= r_k rs)%Z.
  Hypothesis Rm : (Z.to_nat (r_k rs + 1) <= m)%nat.
  (** the agents that may delegate *)
  Variable L : nat -> Prop.
  Notation tidy := (AnyRank.tidy m).
  Notation ej := (AnyRank.ej m).
  Implicit Types w x : world QcA. Implicit Types ag : agent QcA. Implicit Types st new : strategy QcA. Implicit Types id r : nat. Implicit Types p q : pool QcA.

  Definition ok_pool p : Prop := sound_pool rs p /\ forall a, In a (keys (p_delegators p)) -> L a.
  Definition heap_ok w : Prop := forall r p, get (w_heap w) r = Some p -> ok_pool p.
  Record es w : Prop := { es_tidy : tidy w; es_rss : w_rss w = rs; es_heap : heap_ok w }.
  (** public pools in operation are worth having *)
  Definition worth w : Prop := forall id r p, get (w_pools w) id = Some r -> get (w_heap w) r = Some p -> p_private p = false -> 0 < p_pp p.

  Lemma terms_pp p q : sound_pool rs p -> sound_pool rs q -> terms p q -> p_pp q = p_pp p /\ p_des q = p_des p.
  Proof.
    intros (F1 & _) (F2 & _) (_ & _ & T3 & T4 & T5 & _). assert (E : p_pp q = p_pp p). { assert (P1 := pf_pp _ _ _ _ F1). assert (P2 := pf_pp _ _ _ _ F2). rewrite T3, T4 in P2. rewrite P1 in P2. now injection P2 as <-. }
    split; [exact E|]. rewrite (pf_des _ _ _ _ F1), (pf_des _ _ _ _ F2), T5, E. reflexivity.
  Qed.
  Lemma es_of w0 w : es w0 -> ej w0 w -> heap_ok w -> es w.
  Proof. intros [E1 E2 E3] J H. constructor; [exact (ej_tidy _ _ _ J) | rewrite (ej_rss _ _ _ J); exact E2 | exact H]. Qed.
  Lemma worth_of w0 w : es w0 -> worth w0 -> w_pools w = w_pools w0 -> hk w0 w -> heap_ok w -> worth w.
  Proof.
    intros [E1 E2 E3] P Ep H Hh. intros id r p G Gp Pv. rewrite Ep in G. destruct (proj2 (proj1 E1) id r G) as (q & Gq & _). destruct (H r q Gq) as (p' & Gp' & T). rewrite Gp in Gp'. injection Gp' as <-.
    destruct (terms_pp q p (proj1 (E3 _ _ Gq)) (proj1 (Hh _ _ Gp)) T) as [-> _]. apply (P id r q G Gq). destruct T as (_ & _ & _ & _ & _ & <-). exact Pv.
  Qed.
  Lemma ok_upd p (v : Qc) uid : ok_pool p -> v = 0 \/ ltb (a := QcA) v min_stake_unit = false -> L uid -> ok_pool (update_delegation (A := QcA) v uid p).
  Proof.
    intros [(F & N & V) D] Hv Hu. assert (K : forall a u, get (p_delegators (update_delegation (A := QcA) v uid p)) a = Some u -> (a = uid /\ u = v /\ ltb (a := QcA) v min_stake_unit = false) \/ get (p_delegators p) a = Some u).
    { intros a u G. unfold update_delegation in G. cbn [p_delegators] in G. destruct (ltb (a := QcA) v min_stake_unit) eqn:Lv.
      - rewrite get_pop in G by now apply NoDup_set. destruct (Nat.eqb_spec uid a); [discriminate|]. rewrite get_set_ne in G by assumption. now right.
      - rewrite get_set in G. destruct (Nat.eqb_spec uid a) as [<-|]; [|now right]. injection G as <-. left. auto. }
    split; [split; [|split]|].
    - apply E_NP_upd; assumption.
    - unfold update_delegation. cbn [p_delegators]. destruct (ltb (a := QcA) v min_stake_unit); [apply NoDup_pop|]; now apply NoDup_set.
    - intros a u G. apply K in G as [(_ & -> & E)|G]; [exact E | now apply (V a)].
    - intros a J. apply get_Some_key in J as (u & J). apply K in J as [(-> & _)|J]; [exact Hu | apply D; apply get_Some_key; eauto].
  Qed.

  (** ** one delegation is taken out or put back *)
  Lemma rankm_remove_ok w r p : es w -> In r (values (w_pools w)) -> get (w_heap w) r = Some p -> exists l, rankm_remove w r = Ok (with_rankm l w).
  Proof.
    intros E Hr G. destruct (kt_ok rs R p) as (k & Hk). destruct (es_tidy _ E) as [_ [_ R2]]. rewrite (es_rss _ E) in R2.
    destruct (rank_ok_remove_total QcA_ord _ _ _ _ _ _ _ _ R2 Hr G Hk) as (l & Hl). exists l. unfold rankm_remove, deref. rewrite G, (es_rss _ E). cbn [of_option bind]. rewrite Hk. cbn [bind]. now rewrite Hl.
  Qed.
  Lemma touch_kp uid w id (v : Qc) : es w -> v = 0 \/ ltb (a := QcA) v min_stake_unit = false -> L uid ->
    kp (touch_delegation uid w id v) (fun w' => es w' /\ w_pools w' = w_pools w /\
      exists r p, get (w_pools w) id = Some r /\ get (w_heap w) r = Some p /\ w_heap w' = set (w_heap w) r (update_delegation (A := QcA) v uid p)).
  Proof.
    intros E Hv Hu. unfold touch_delegation. unfold the_pool. apply (kp_bind _ _ (fun r => get (w_pools w) id = Some r)); [apply kp_key; auto|]. intros r _ Gr.
    destruct (proj2 (proj1 (es_tidy _ E)) id r Gr) as (p & Gp & _). destruct (rankm_remove_ok w r p E (values_In _ _ _ Gr) Gp) as (l & Hl).
    assert (H : exists w', touch_delegation uid w id v = Ok w').
    { unfold touch_delegation, the_pool. rewrite Gr. cbn [of_option bind]. rewrite Hl. cbn [bind]. unfold deref. cbn [with_rankm w_heap]. rewrite Gp. cbn [of_option bind].
      unfold rankm_add, deref. cbn [store with_heap with_rankm w_heap w_rss]. rewrite get_set_eq. cbn [of_option bind]. rewrite (es_rss _ E). destruct (kt_ok rs R (update_delegation (A := QcA) v uid p)) as (k & ->). cbn. eauto. }
    destruct H as (w' & H). assert (H' := H). unfold touch_delegation, the_pool in H'. rewrite Gr in H'. cbn [of_option bind] in H'. rewrite H'. cbn [kp].
    destruct (AnyRank.touch_tidy QcA_ord m uid w id v w' (es_tidy _ E) H) as (T1 & T2 & T3 & T4).
    apply Inv.touch_ok in H as (r1 & p1 & k & l1 & k' & G1 & G2 & _ & _ & _ & Ew). rewrite Gr in G1. injection G1 as <-. rewrite Gp in G2. injection G2 as <-.
    assert (Hh : w_heap w' = set (w_heap w) r (update_delegation (A := QcA) v uid p)) by (rewrite Ew; reflexivity).
    split; [|split; [exact T2 | exists r, p; auto]]. constructor; [exact T1 | rewrite T4; apply E|].
    intros r' q G. rewrite Hh, get_set in G. destruct (Nat.eqb_spec r r') as [<-|]; [|exact (es_heap _ E _ _ G)]. injection G as <-. apply ok_upd; [exact (es_heap _ E _ _ Gp) | exact Hv | exact Hu].
  Qed.
  Lemma touches_kp uid (l : dict Qc) : L uid -> (forall id v, In (id, v) l -> v = 0 \/ ltb (a := QcA) v min_stake_unit = false) -> forall w, es w -> kp (touches (A := QcA) uid l w) (fun w' => es w' /\ w_pools w' = w_pools w).
  Proof.
    intros Hu Hv w E. unfold touches. apply (kp_foldM (B := world QcA) (Y := nat * Qc) _ (fun w' => es w' /\ w_pools w' = w_pools w)); [now split|]. intros x [id v] J [Ex Px]. eapply kp_weak; [apply touch_kp; [exact Ex | apply (Hv id v); exact J | exact Hu]|]. cbn. intros x' _ (E1 & E2 & _). split; [exact E1 | congruence].
  Qed.
  (** what putting delegations back records *)
  Lemma touches_recorded uid (l : dict Qc) : L uid -> NoDup (keys l) -> (forall id v, In (id, v) l -> ltb (a := QcA) v min_stake_unit = false) -> forall w w', es w -> touches (A := QcA) uid l w = Ok w' ->
    (forall id r p, ~ In id (keys l) -> get (w_pools w) id = Some r -> get (w_heap w) r = Some p -> get (w_heap w') r = Some p) /\
    (forall id v r p, In (id, v) l -> get (w_pools w') id = Some r -> get (w_heap w') r = Some p -> get (p_delegators p) uid = Some v).
  Proof.
    intros Hu N Hv. induction l as [|[id v] l IH]; intros w w' E H; cbn [touches foldM] in H; [injection H as <-; split; [auto | intros ? ? ? ? []]|].
    unfold touches in H. cbn [foldM] in H. apply bind_ok in H as (w1 & H1 & H). cbn [fst snd] in H1. cbn in N. apply NoDup_cons_iff in N as [N1 N2].
    assert (K := touch_kp uid w id v E (or_intror (Hv id v (or_introl eq_refl))) Hu). rewrite H1 in K. cbn [kp] in K. destruct K as (E1 & P1 & r0 & p0 & G0 & Gp0 & Hh).
    destruct (IH N2 (fun i u J => Hv i u (or_intror J)) w1 w' E1 H) as [I1 I2].
    assert (Inj : forall i r, get (w_pools w) i = Some r -> r = r0 -> i = id). { intros i r G ->. destruct (proj2 (proj1 (es_tidy _ E)) i r0 G) as (q & Gq & Iq). destruct (proj2 (proj1 (es_tidy _ E)) id r0 G0) as (q' & Gq' & Iq'). congruence. }
    split.
    - intros i r p Ni Gi Gp. apply (I1 i r p); [intros J; apply Ni; now right | rewrite P1; exact Gi|]. rewrite Hh, get_set. destruct (Nat.eqb_spec r0 r) as [Er|]; [|exact Gp]. exfalso. apply Ni. left. symmetry. now apply (Inj i r).
    - intros i u r p J Gi Gp. destruct J as [[= -> ->]|J]; [|exact (I2 i u r p J Gi Gp)].
      assert (Kp := touches_kp uid l Hu (fun i u J => or_intror (Hv i u (or_intror J))) w1 E1). unfold touches in Kp. rewrite H in Kp. destruct Kp as [_ P2]. rewrite P2, P1, G0 in Gi. injection Gi as <-.
      assert (Gq : get (w_heap w1) r0 = Some (update_delegation (A := QcA) u uid p0)) by (rewrite Hh; apply get_set_eq).
      assert (G' := I1 i r0 _ N1 ltac:(rewrite P1; exact G0) Gq). rewrite Gp in G'. injection G' as ->. unfold update_delegation. cbn [p_delegators]. rewrite (Hv i u (or_introl eq_refl)). apply get_set_eq.
  Qed.

  (** ** utilities *)
  Lemma reg_ok w id r : es w -> get (w_pools w) id = Some r -> exists p, get (w_heap w) r = Some p /\ p_id p = id /\ sound_pool rs p.
  Proof. intros E G. destruct (proj2 (proj1 (es_tidy _ E)) id r G) as (p & Gp & Ip). exists p. split; [exact Gp|]. split; [exact Ip | apply (es_heap _ E _ _ Gp)]. Qed.
  Lemma rank_elem w K rk e : es w -> rank_ok K (w_heap w) m (values (w_pools w)) rk -> In e (sl_elems rk) -> e = None \/ exists r p, e = Some r /\ get (w_heap w) r = Some p /\ sound_pool rs p.
  Proof.
    intros E (R1 & R2 & R3) J. apply (Permutation_in _ R2) in J. apply in_app_iff in J as [J|J]; [left; now apply repeat_spec in J|]. right. apply in_map_iff in J as (r & <- & J).
    apply In_values in J as (id & J); [|apply (es_tidy _ E)]. destruct (reg_ok w id r E J) as (p & P1 & _ & P2). exists r, p. auto.
  Qed.
  Lemma ranked_ok w id r : es w -> (forall p, get (w_heap w) r = Some p -> 0 < p_pp p) -> get (w_pools w) id = Some r -> exists s, non_myopic_stake w r (w_rank w) = Ok s /\ 0 < s.
  Proof.
    intros E Hp G. destruct (reg_ok w id r E G) as (p & P1 & _ & P2). destruct (es_tidy _ E) as [_ [RK _]].
    destruct (rank_ok_index_total QcA_ord _ _ _ _ _ _ _ _ RK (values_In _ _ _ G) P1 eq_refl) as (i & Ei).
    assert (S' : sound_pool (w_rss w) p) by now rewrite (es_rss _ E).
    apply (nonmyopic_value w r p (w_rank w) i P1 Ei S').
    intros e Je. apply firstn_nth in Je as (j & Lj & Nj). unfold sl_elems in Nj. rewrite nth_error_map in Nj.
    destruct (nth_error (w_rank w) j) as [[k' e']|] eqn:Ej; [|discriminate]. cbn in Nj. injection Nj as ->. assert (Z := before_index _ _ _ _ (proj1 RK) Ei j k' e Lj Ej).
    apply nth_error_In in Ej. destruct e as [r'|].
    - destruct (proj2 (proj2 RK) _ _ Ej) as (q & Gq & _). exists r', q. auto.
    - assert (E2 := proj2 (proj2 RK) _ _ Ej). cbn in E2. subst k'. rewrite key_before_none in Z; [discriminate | apply (pf_des _ _ _ _ (proj1 P2)) | exact (Hp p P1)].
  Qed.
  Definition refs_ok w (refs : list nat) : Prop := forall r, In r refs -> exists p, get (w_heap w) r = Some p.
  Lemma op_utility_ok w ag st : es w -> a_profile ag <> Abstainer -> refs_ok w (values (s_owned st)) -> exists u, op_utility_strategy w ag st = Ok u.
  Proof.
    intros E Pr H. unfold op_utility_strategy. assert (R' : rss_ok (w_rss w)) by now rewrite (es_rss _ E).
    assert (Sd : forall r p, get (w_heap w) r = Some p -> sound_pool (w_rss w) p) by (intros r p G; rewrite (es_rss _ E); apply (es_heap _ E _ _ G)). destruct (a_profile ag); [| |contradiction].
    - set (g := fun e : option nat => match e with None => false | Some r => match get (w_heap w) r with Some p => negb (Nat.eqb (p_owner p) (a_id ag)) | None => false end end).
      rewrite (filterM_pure _ g); [|intros e J; destruct (rank_elem w _ _ e E (proj1 (proj2 (es_tidy _ E))) J) as [->|(r & p & -> & G & _)]; cbn; [reflexivity|]; unfold deref; rewrite G; reflexivity].
      cbn [bind].
      assert (O : exists refs, filter g (sl_elems (w_rank w)) = map Some refs /\ forall r, In r refs -> exists p, get (w_heap w) r = Some p).
      { induction (sl_elems (w_rank w)) as [|e l (refs & Ee & Hr)]; [exists []; split; [reflexivity | intros r []]|]. cbn [filter]. destruct (g e) eqn:Eg; [|exists refs; auto].
        destruct e as [r|]; [|discriminate]. cbn in Eg. destruct (get (w_heap w) r) as [p|] eqn:G; [|discriminate]. exists (r :: refs). split; [cbn; now rewrite Ee|]. intros r' [<-|J]; [eauto | now apply Hr]. }
      destruct O as (refs & -> & Hr). destruct (add_pools w refs []) as (t0 & E0 & L0 & _); [split; [constructor | intros k e []] | assumption|].
      match goal with |- context [foldM ?f (map Some refs) []] => change f with (add_pool w) end. rewrite E0. cbn [bind].
      destruct (add_pools w (values (s_owned st)) t0 L0) as (t1 & E1 & L1 & I1 & _); [exact H|].
      match goal with |- context [foldM ?f (map Some (values (s_owned st))) t0] => change f with (add_pool w) end. rewrite E1. cbn [bind].
      destruct (sum_own_total w (fun r p => let! s := non_myopic_stake w r t1 in pool_operator_utility w s p) (values (s_owned st))) with (u := zero (a := QcA)) as (u & Eu).
      { intros r J. destruct (H r J) as (p & G). destruct (nonmyopic_listed w t1 r p L1 (I1 r J) G (Sd _ _ G)) as (s & Es & Ps). exists p. rewrite Es. cbn [bind]. unfold pool_operator_utility. rewrite (op_util_ok _ R') by now apply Qc_pos_neq. eauto. }
      exists u. etransitivity; [|exact Eu]. unfold sum_own. apply foldM_ext. intros u0 r J. destruct (deref w r); [|reflexivity]. cbn [bind]. destruct (non_myopic_stake w r t1); reflexivity.
    - destruct (sum_own_total w (fun r p => pool_operator_utility w (p_stake p) p) (values (s_owned st))) with (u := zero (a := QcA)) as (u & Eu).
      { intros r J. destruct (H r J) as (p & G). destruct (sound_stake _ _ (Sd _ _ G)). exists p. unfold pool_operator_utility. rewrite (op_util_ok _ R'); [eauto|]. apply Qc_pos_neq. qlra. }
      exists u. exact Eu.
  Qed.
  Definition prev st id : Qc := match get (s_alloc st) id with Some v => v | None => 0 end.
  Lemma del_utility_kp w ag st id r (a : Qc) : es w -> (a_profile ag = NonMyopic -> forall p, get (w_heap w) r = Some p -> 0 < p_pp p) -> a_profile ag <> Abstainer -> a_strategy ag = Some st -> get (w_pools w) id = Some r -> (forall p, get (w_heap w) r = Some p -> 0 < p_stake p - prev st id + a) ->
    kp (del_utility_pool w ag r a) (fun _ => True).
  Proof.
    intros E Hp Pr Gs G C. destruct (reg_ok w id r E G) as (p & P1 & P2 & P3). specialize (C p P1). assert (R' : rss_ok (w_rss w)) by now rewrite (es_rss _ E).
    unfold del_utility_pool, the_strategy. rewrite Gs. cbn [of_option bind]. unfold deref. rewrite P1. cbn [of_option bind]. rewrite P2.
    assert (Du : forall s : Qc, 0 < s -> exists u, delegator_utility (A := QcA) (w_rss w) a s (p_pledge p) (p_margin p) (p_cost p) = Ok u) by (intros s Hs; rewrite (del_util_ok _ R') by (now apply Qc_pos_neq); eauto).
    destruct (a_profile ag); [| |contradiction].
    - apply (kp_bind _ _ (fun s : Qc => 0 < s)).
      + apply (kp_bind _ _ (fun s : Qc => 0 < s)); [destruct (ranked_ok w id r E (Hp eq_refl) G) as (s & Es & Ps); now apply (kp_ok _ s)|]. intros s _ Ps. cbn [kp]. rewrite pmax_max. exact (Qclt_le_trans _ _ _ Ps (Qcmax_l s _)).
      + intros s _ Ps. destruct (Du s Ps) as (u & Eu). now apply (kp_ok _ u).
    - cbn [bind]. destruct (Du (p_stake p - prev st id + a) C) as (u & Eu). unfold prev in Eu. now apply (kp_ok _ u).
  Qed.

  (** for an agent with this stake and cost, some number of pools pays *)
  Definition able (stk c f : Qc) : Prop := exists n (pledge cost : Qc), (1 <= n <= r_k rs)%Z /\ pledge_per_pool (A := QcA) stk (r_thr rs) n = Ok pledge /\ cost_per_pool (A := QcA) n c f = Ok cost /\ 0 < pot_profit rs pledge cost.
  (** ** an agent with the strategy [st] *)
  Section Agent.
  Variables (ag : agent QcA) (st : strategy QcA).
  Hypothesis Hst : a_strategy ag = Some st.
  Hypothesis Na : NoDup (keys (s_alloc st)).
  Hypothesis Ba : bigs (A := QcA) (s_alloc st).
  Hypothesis No : NoDup (keys (s_owned st)).
  Hypothesis Pr : a_profile ag <> Abstainer.
  Hypothesis Sp : 0 < a_stake ag.
  Notation uid := (a_id ag).
  Hypothesis Lu : L uid.

  Definition pays w new : Prop := forall id (v : Qc) r p, In (id, v) (s_alloc new) -> get (w_pools w) id = Some r -> get (w_heap w) r = Some p -> 0 < p_stake p - prev st id + v.
  (** the delegations of [st] are recorded by the pools *)
  Definition restored w : Prop := forall id (v : Qc) r p, In (id, v) (s_alloc st) -> get (w_pools w) id = Some r -> get (w_heap w) r = Some p -> get (p_delegators p) uid = Some v.
  Lemma big_pos (v : Qc) : ltb (a := QcA) v min_stake_unit = false -> 0 < v.
  Proof. intros H. apply ltb_MIN_false in H. eapply Qclt_le_trans; [|exact H]. reflexivity. Qed.
  Lemma pays_own w : es w -> pays w st.
  Proof.
    intros E id v r p J G Gp. unfold prev. rewrite (In_get _ _ _ Na J). destruct (reg_ok w id r E G) as (p' & G' & _ & Sd). rewrite Gp in G'. injection G' as <-. destruct (sound_stake _ _ Sd). qlra.
  Qed.
  Lemma pays_restored w new : es w -> bigs (A := QcA) (s_alloc new) -> restored w -> pays w new.
  Proof.
    intros E B H id v r p J G Gp. destruct (reg_ok w id r E G) as (p' & G' & _ & Sd). rewrite Gp in G'. injection G' as <-. destruct (sound_stake _ _ Sd). assert (Pv := big_pos v (B id v J)). unfold prev.
    destruct (get (s_alloc st) id) as [u|] eqn:Eu; [|qlra]. apply get_In in Eu. assert (Z := sound_without _ _ _ _ Sd (H id u r p Eu G Gp)). qlra.
  Qed.
  Lemma pays_nil w new : s_alloc new = [] -> pays w new.
  Proof. intros E id v r p J. rewrite E in J. destruct J. Qed.
  (** a non-myopic agent looks only at pools that are worth having *)
  Definition seen w new : Prop := a_profile ag = NonMyopic -> forall id (v : Qc) r p, In (id, v) (s_alloc new) -> get (w_pools w) id = Some r -> get (w_heap w) r = Some p -> 0 < p_pp p.
  (** the delegations of a move go to public pools *)
  Definition public w new : Prop := forall id (v : Qc), In (id, v) (s_alloc new) -> exists r p, get (w_pools w) id = Some r /\ get (w_heap w) r = Some p /\ p_private p = false.
  Lemma seen_public w new : worth w -> public w new -> seen w new.
  Proof. intros W P _ id v r p J G Gp. destruct (P id v J) as (r' & p' & G' & Gp' & Pv). rewrite G in G'. injection G' as <-. rewrite Gp in Gp'. injection Gp' as <-. exact (W id r p G Gp Pv). Qed.
  Lemma public_nil w new : s_alloc new = [] -> public w new.
  Proof. intros E id v J. rewrite E in J. destruct J. Qed.
  Lemma expected_kp w new : es w -> seen w new -> refs_ok w (values (s_owned new)) -> pays w new -> kp (expected_utility w ag new) (fun _ => True).
  Proof.
    intros E Hp H C. unfold expected_utility. apply (kp_bind _ _ (fun _ => True)).
    - destruct (s_owned new) eqn:Eo; [exact I|]. rewrite <- Eo in H. destruct (op_utility_ok w ag new E Pr H) as (u & ->). exact I.
    - intros u _ _. apply (kp_foldM (B := T QcA) (Y := nat * T QcA)); [exact I|]. intros x [id v] J _. destruct (get (w_pools w) id) as [r|] eqn:G; [|exact I].
      apply (kp_bind _ _ (fun _ => True)); [|intros; exact I]. apply (del_utility_kp w ag st id r v E); [intros Ep p Gp; exact (Hp Ep id v r p J G Gp) | exact Pr | exact Hst | exact G|]. intros p Gp. exact (C id v r p J G Gp).
  Qed.
  Lemma current_kp w : es w -> refs_ok w (values (s_owned st)) -> kp (current_utility w ag) (fun _ => True).
  Proof.
    intros E H. assert (R' : rss_ok (w_rss w)) by now rewrite (es_rss _ E). unfold current_utility, the_strategy. rewrite Hst. cbn [of_option bind].
    apply (kp_bind _ _ (fun _ => True)).
    - apply kp_foldM; [exact I|]. intros x r J _. destruct (H r J) as (p & G). unfold deref. rewrite G. cbn [of_option bind]. destruct (sound_stake _ _ (proj1 (es_heap _ E _ _ G))). unfold pool_operator_utility. rewrite (op_util_ok _ R'); [exact I|]. apply Qc_pos_neq. qlra.
    - intros u _ _. apply (kp_foldM (B := T QcA) (Y := nat * T QcA)); [exact I|]. intros x [id v] J _. unfold the_pool. apply (kp_bind _ _ (fun r => get (w_pools w) id = Some r)); [apply kp_key; auto|]. intros r _ G.
      destruct (reg_ok w id r E G) as (p & Gp & _ & Sd). unfold deref. rewrite Gp. cbn [of_option bind]. destruct (sound_stake _ _ Sd). rewrite (del_util_ok _ R'); [exact I|]. apply Qc_pos_neq. qlra.
  Qed.
  Lemma rankings_ok w : es w -> exists rk K, rankings w ag = Ok rk /\ rank_ok K (w_heap w) m (values (w_pools w)) rk.
  Proof.
    intros E. destruct (es_tidy _ E) as [_ [R1 R2]]. unfold rankings. destruct (a_profile ag); [| |contradiction]; do 2 eexists; (split; [reflexivity | eassumption]).
  Qed.
  Lemma filter_ok w rk K (b : bool) (f : pool QcA -> bool) : es w -> rank_ok K (w_heap w) m (values (w_pools w)) rk ->
    filterM (fun e => match e with None => Ok b | Some r => let! p := deref w r in Ok (f p) end) (sl_elems rk) =
    Ok (filter (fun e => match e with None => b | Some r => match get (w_heap w) r with Some p => f p | None => false end end) (sl_elems rk)).
  Proof.
    intros E Rk'. apply filterM_pure. intros e J. destruct (rank_elem w K rk e E Rk' J) as [->|(r & p & -> & G & _)]; [reflexivity|]. unfold deref. now rewrite G.
  Qed.
  Lemma fixed_ok w : es w -> exists fixed, fixed_pools_ranked w ag = Ok fixed /\ (Z.to_nat (r_k rs) < length fixed)%nat /\
    forall e, In e fixed -> e = None \/ exists r p, e = Some r /\ get (w_heap w) r = Some p /\ sound_pool rs p.
  Proof.
    intros E. destruct (rankings_ok w E) as (rk & K & Hrk & Rr). unfold fixed_pools_ranked. rewrite Hrk. cbn [bind]. rewrite (filter_ok w rk K true (fun p => negb (Nat.eqb (p_owner p) uid)) E Rr).
    eexists. split; [reflexivity|]. split.
    - assert (N := filter_nones (fun e => match e with None => true | Some r => match get (w_heap w) r with Some p => negb (Nat.eqb (p_owner p) uid) | None => false end end) _ _ _ eq_refl (proj1 (proj2 Rr))).
      eapply Nat.lt_le_trans; [|exact N]. lia.
    - intros e J. apply filter_In in J as [J _]. destruct (rank_elem w K rk e E Rr J) as [->|(r & p & -> & G & Sd)]; [now left|]. right. exists r, p. auto.
  Qed.
  Lemma margins_ok w n : es w -> refs_ok w (values (s_owned st)) -> (1 <= n <= r_k rs)%Z -> exists ms u, margins_and_utility w ag n = Ok (ms, u).
  Proof.
    intros E H Hn. assert (Er := es_rss _ E). destruct (fixed_ok w E) as (fixed & Hf & Lf & Ff).
    destruct (cost_ok n (a_cost ag) (w_phi w)) as (cost & Hc); [lia|]. destruct (pledge_ok rs R n (a_stake ag)) as (pledge & Hp & Pp); [lia | assumption|].
    assert (Ps := thr_pos _ R pledge Rcip Pp).
    assert (Ix : forall t, In t (zrange 1 (n + 1)) -> exists e, py_index fixed (r_k rs - t) = Ok e /\ (e = None \/ exists r p, e = Some r /\ get (w_heap w) r = Some p /\ sound_pool rs p)).
    { intros t J. apply zrange_In in J. destruct (py_index_ok fixed (r_k rs - t)) as (e & Ee & _); [lia|]. exists e. split; [assumption|]. apply Ff. now apply ListFacts.py_index_In in Ee. }
    unfold margins_and_utility, agent_cost_per_pool, agent_pledge_per_pool. rewrite Er. destruct (a_profile ag) eqn:Ep; [| |contradiction].
    - rewrite Hc. cbn [bind]. rewrite Hp. cbn [bind]. rewrite potential_profit_ok by assumption. cbn [bind]. rewrite Hf. cbn [bind].
      match goal with |- context [foldM ?f ?l ?a] => destruct (foldM_total f (fun _ => True) l a I) as ([ms u] & Ef & _) end; [|eauto].
      intros [ms u] t J _. destruct (Ix t J) as (e & -> & He). cbn [bind].
      assert (D : exists dp, match e with None => Ok (zero (a := QcA), zero (a := QcA)) | Some r => let! p := deref w r in Ok (p_des p, p_pp p) end = Ok dp).
      { destruct He as [->|(r & p & -> & G & _)]; [eauto|]. unfold deref. rewrite G. cbn. eauto. }
      destruct D as (dp & ->). cbn [bind]. destruct (ltb _ _); [rewrite (op_util_ok _ R) by (now apply Qc_pos_neq); cbn; eauto|]. rewrite suitable_margin_ok. cbn [bind].
      rewrite (op_util_ok _ R) by (now apply Qc_pos_neq). cbn. eauto.
    - rewrite Hc. cbn [bind]. rewrite Hp. cbn [bind]. unfold the_strategy. rewrite Hst. cbn [of_option bind].
      destruct (mapM_total (deref w) (values (s_owned st))) as (owned & ->). { intros r J. destruct (H r J) as (p & G). unfold deref. rewrite G. cbn. eauto. }
      cbn [bind]. rewrite pdiv_ok by (apply Qc_pos_neq, Qc_ofZ_pos; lia). cbn [bind]. rewrite current_profit_ok by assumption. cbn [bind]. rewrite Hf. cbn [bind].
      match goal with |- context [foldM ?f ?l ?a] => destruct (foldM_total f (fun _ => True) l a I) as ([ms u] & Ef & _) end; [|eauto].
      intros [ms u] t J _. destruct (Ix t J) as (e & -> & He). cbn [bind].
      assert (D : exists dp, match e with None => Ok (zero (a := QcA)) | Some r => let! p := deref w r in let! cp := current_profit rs (p_stake p) (p_pledge p) (p_cost p) in Ok (desirability (p_margin p) cp) end = Ok dp).
      { destruct He as [->|(r & p & -> & G & _)]; [eauto|]. unfold deref. rewrite G. cbn [of_option bind]. rewrite current_profit_ok by assumption. cbn. eauto. }
      destruct D as (dp & ->). cbn [bind]. rewrite suitable_margin_ok. cbn [bind]. rewrite (op_util_ok _ R) by (now apply Qc_pos_neq). cbn. eauto.
  Qed.
  Lemma margins_src' w n ms u : es w -> margins_and_utility w ag n = Ok (ms, u) -> Forall (margin_src (A := QcA) nonneg) ms /\ ((0 <= n)%Z -> length ms = Z.to_nat n).
  Proof.
    intros E H. unfold margins_and_utility in H.
    assert (G : forall (g : list (T QcA) * T QcA -> Z -> res (list (T QcA) * T QcA)) l acc (r : list (T QcA) * T QcA),
        (forall acc t (r : list (T QcA) * T QcA), g acc t = Ok r -> exists m, margin_src (A := QcA) nonneg m /\ fst r = fst acc ++ [m]) -> foldM g l acc = Ok r -> Forall (margin_src (A := QcA) nonneg) (fst acc) ->
        Forall (margin_src (A := QcA) nonneg) (fst r) /\ length (fst r) = (length (fst acc) + length l)%nat).
    { intros g l. induction l as [|t l IH]; intros acc r Hg Hf Ha; cbn in Hf.
      - injection Hf as <-. split; [assumption | cbn; lia].
      - apply bind_ok in Hf as (acc1 & H1 & Hf). destruct (Hg _ _ _ H1) as (mm & Hm & Em).
        destruct (IH acc1 r Hg Hf) as [I1 I2]; [rewrite Em; apply Forall_app; split; [assumption | now constructor]|].
        split; [assumption|]. rewrite I2, Em, app_length. cbn. lia. }
    assert (Fix : forall fixed (x : nat) i, fixed_pools_ranked w ag = Ok fixed -> py_index fixed i = Ok (Some x) -> forall p, deref w x = Ok p -> NPF rs p).
    { intros fixed x i Hf Hi p Hp. unfold deref in Hp. apply of_option_ok in Hp. exact (proj1 (proj1 (es_heap _ E _ _ Hp))). }
    destruct (a_profile ag); [| |discriminate].
    - inv_all. match goal with K : foldM _ _ _ = Ok (ms, u) |- _ => apply G in K; [|intros [ms0 u0] t r K2 | constructor] end.
      + cbn [fst length] in *. rewrite zrange_length in *. destruct H. split; [assumption|]. intros. lia.
      + inv_all. match type of K2 with (if ?b then _ else _) = _ => destruct b end.
        * inv_all. subst r. exists (zero (a := QcA)). split; [now left | reflexivity].
        * inv_all. subst r. eexists. split; [right; do 2 eexists; split; [|eassumption] | reflexivity].
          match goal with K : match ?v with Some _ => _ | None => _ end = Ok _ |- _ => destruct v; [|injection K as <-; exact (proj2 E_TG_z)] end.
          inv_all. subst. cbn [fst snd]. eapply (E_TG_np False True rs). eapply Fix; [first [eassumption | reflexivity] | eassumption | eassumption].
    - inv_all. match goal with K : foldM _ _ _ = Ok (ms, u) |- _ => apply G in K; [|intros [ms0 u0] t r K2 | constructor] end.
      + cbn [fst length] in *. rewrite zrange_length in *. destruct H. split; [assumption|]. intros. lia.
      + inv_all. subst r. eexists. split; [right; do 2 eexists; split; [|eassumption] | reflexivity].
        match goal with K : match ?v with Some _ => _ | None => _ end = Ok _ |- _ => destruct v; [inv_all; subst; apply E_TG_d | injection K as <-; exact (proj1 E_TG_z)] end.
  Qed.

  Notation ks := (keys (s_alloc st)).
  (** the delegations of the agent may have been taken out and put back *)
  Record tw w x : Prop := { tw_pools : w_pools x = w_pools w; tw_rank : w_rank x = w_rank w; tw_total : w_total x = w_total w; tw_hk : AnyBooks.hk w x;
    tw_reg : forall id r p, get (w_pools w) id = Some r -> get (w_heap w) r = Some p ->
      exists q, get (w_heap x) r = Some q /\ terms p q /\ (forall b, b <> uid -> get (p_delegators q) b = get (p_delegators p) b) /\ (~ In id ks -> q = p) }.
  Lemma tw_refl w : tw w w.
  Proof. constructor; auto; [apply AnyBooks.hk_refl|]. intros id r p G H. exists p. split; [exact H|]. split; [apply terms_refl | auto]. Qed.
  Lemma tw_trans w x y : tw w x -> tw x y -> tw w y.
  Proof.
    intros [A1 A2 A3 A5 A4] [B1 B2 B3 B5 B4]. constructor; try congruence; [exact (AnyBooks.hk_trans _ _ _ A5 B5)|]. intros id r p G H. destruct (A4 id r p G H) as (q & Q1 & Q2 & Q3 & Q4). destruct (B4 id r q) as (q' & R1 & R2 & R3 & R4); [congruence | exact Q1|].
    exists q'. split; [exact R1|]. split; [exact (terms_trans _ _ _ Q2 R2)|]. split; [intros b Nb; rewrite R3, Q3 by assumption; reflexivity | intros Ni; rewrite R4, Q4 by assumption; reflexivity].
  Qed.
  Lemma upd_get (v : Qc) p b : NoDup (keys (p_delegators p)) -> get (p_delegators (update_delegation (A := QcA) v uid p)) b = if Nat.eqb uid b then (if ltb (a := QcA) v min_stake_unit then None else Some v) else get (p_delegators p) b.
  Proof.
    intros N. unfold update_delegation. cbn [p_delegators]. destruct (ltb _ _).
    - rewrite get_pop by now apply NoDup_set. destruct (Nat.eqb_spec uid b); [reflexivity|]. now rewrite get_set_ne.
    - rewrite get_set. reflexivity.
  Qed.
  Lemma touch_tw w id (v : Qc) x : es w -> In id ks -> touch_delegation uid w id v = Ok x -> tw w x.
  Proof.
    intros E Ji H. apply Inv.touch_ok in H as (r & p & k & l & k' & G1 & G2 & _ & _ & _ & ->). constructor; [reflexivity | reflexivity | reflexivity | |].
    - intros r' p' Gp. cbn [with_rankm store with_heap w_heap]. rewrite get_set. destruct (Nat.eqb_spec r r') as [<-|]; [rewrite G2 in Gp; injection Gp as <-; eexists; split; [reflexivity | apply terms_upd] | exists p'; split; [exact Gp | apply terms_refl]].
    - intros i r' p' Gi Gp. cbn [with_rankm store with_heap w_heap]. rewrite get_set. destruct (Nat.eqb_spec r r') as [<-|].
    { rewrite G2 in Gp. injection Gp as <-. exists (update_delegation (A := QcA) v uid p). split; [reflexivity|]. split; [apply terms_upd|]. destruct (reg_ok w i r E Gi) as (q & Gq & Iq & (_ & N & _)). rewrite G2 in Gq. injection Gq as <-. destruct (reg_ok w id r E G1) as (q & Gq & Iq' & _). rewrite G2 in Gq. injection Gq as <-. split.
      + intros b Nb. rewrite upd_get by exact N. destruct (Nat.eqb_spec uid b); [congruence | reflexivity].
      + intros Ni. exfalso. apply Ni. now rewrite <- Iq, Iq'. }
      exists p'. split; [exact Gp|]. split; [apply terms_refl | auto].
  Qed.
  Lemma touches_tw (l : dict Qc) : incl (keys l) ks -> (forall id v, In (id, v) l -> v = 0 \/ ltb (a := QcA) v min_stake_unit = false) -> forall w x, es w -> touches (A := QcA) uid l w = Ok x -> es x /\ tw w x.
  Proof.
    intros Hi Hv. induction l as [|[id v] l IH]; intros w x E H; unfold touches in H; cbn [foldM] in H; [injection H as <-; split; [exact E | apply tw_refl]|].
    apply bind_ok in H as (w1 & H1 & H). cbn [fst snd] in H1. assert (K := touch_kp uid w id v E (Hv id v (or_introl eq_refl)) Lu). rewrite H1 in K. destruct K as (E1 & _).
    destruct (IH (fun i J => Hi i (or_intror J)) (fun i u J => Hv i u (or_intror J)) w1 x E1 H) as [E2 T2]. split; [exact E2|]. eapply tw_trans; [exact (touch_tw w id v w1 E (Hi id (or_introl eq_refl)) H1) | exact T2].
  Qed.
  Lemma zeros_in (l : list nat) id (v : Qc) : In (id, v) (zeros (A := QcA) l) -> v = 0 \/ ltb (a := QcA) v min_stake_unit = false.
  Proof. intros J. left. unfold zeros in J. apply in_map_iff in J as (y & [= <- <-] & _). reflexivity. Qed.
  Lemma zeros_incl : incl (keys (zeros (A := QcA) ks)) ks.
  Proof. rewrite zeros_keys. apply incl_refl. Qed.
  Lemma greedy_nodup rs' el : forall s d b, NoDup (keys d) -> NoDup (keys (fst (fst (greedy (A := QcA) rs' el s d b)))).
  Proof.
    induction el as [|p el IH]; intros s d b N; cbn [greedy]; [exact N|]. destruct (ltb _ _); [now apply IH|]. destruct (ltb (a := QcA) (sub _ _) _); [cbn; now apply NoDup_set | apply IH; now apply NoDup_set].
  Qed.
  Lemma alloc_nodup rs' el (s : T QcA) : NoDup (keys (greedy_allocations (A := QcA) rs' el s)).
  Proof.
    unfold greedy_allocations. assert (N := greedy_nodup rs' el s [] None (NoDup_nil _)). destruct (greedy rs' el s [] None) as [[d rest] [id|]]; [|exact N]. cbn in N. destruct (leb _ _); [now apply NoDup_set | exact N].
  Qed.
  Lemma keys_set_or {V} (d : dict V) k v a : In a (keys (set d k v)) -> a = k \/ In a (keys d).
  Proof. destruct (in_dec Nat.eq_dec k (keys d)) as [J|J]; [rewrite keys_set_in by exact J; now right|]. rewrite keys_set_new by exact J. intros I. apply in_app_iff in I as [I|[<-|[]]]; auto. Qed.
  Lemma greedy_from (Q : nat -> Prop) rs' el : (forall p, In p el -> Q (p_id p)) -> forall s d b, (forall id, In id (keys d) -> Q id) -> (forall id, b = Some id -> Q id) ->
    (forall id, In id (keys (fst (fst (greedy (A := QcA) rs' el s d b)))) -> Q id) /\ forall id, snd (greedy (A := QcA) rs' el s d b) = Some id -> Q id.
  Proof.
    induction el as [|p el IH]; intros He s d b Hd Hb; cbn [greedy]; [split; assumption|]. assert (He' : forall q, In q el -> Q (p_id q)) by (intros; apply He; now right). assert (Qp := He p (or_introl eq_refl)).
    destruct (ltb _ _); [apply IH; [exact He' | exact Hd | destruct b; [exact Hb | intros id [= <-]; exact Qp]]|].
    assert (Hd' : forall v id, In id (keys (set d (p_id p) v)) -> Q id) by (intros v id J; apply keys_set_or in J as [->|J]; auto).
    destruct (ltb (a := QcA) (sub _ _) _); [split; [apply Hd' | exact Hb] | apply IH; [exact He' | apply Hd' | exact Hb]].
  Qed.
  Lemma alloc_from rs' el (s : T QcA) id : In id (keys (greedy_allocations (A := QcA) rs' el s)) -> exists p, In p el /\ p_id p = id.
  Proof.
    unfold greedy_allocations. destruct (greedy_from (fun id => exists p, In p el /\ p_id p = id) rs' el (fun p J => ex_intro _ p (conj J eq_refl)) s [] None ltac:(intros ? []) ltac:(discriminate)) as [H1 H2].
    destruct (greedy rs' el s [] None) as [[d rest] [i|]]; cbn in H1, H2; [|apply H1]. destruct (leb _ _); [|apply H1]. intros J. apply keys_set_or in J as [->|J]; auto.
  Qed.
  Lemma mapM_In_inv {X Y} (f : X -> res Y) l ys y : mapM f l = Ok ys -> In y ys -> exists z : X, In z l /\ f z = Ok y.
  Proof. intros H J. apply mapM_ok in H. induction H as [|x y' l ys Hx H IH]; [destruct J|]. destruct J as [->|J]; [exists x; split; [now left | exact Hx]|]. destruct (IH J) as (x' & J1 & J2). exists x'. split; [now right | exact J2]. Qed.
  (** ** delegation *)
  Lemma stake_allocations_kp w (s : Qc) : es w -> ltb (a := QcA) s min_stake_unit = false -> kp (stake_allocations w ag s) (fun y => es (fst y) /\ match snd y with None => True | Some d => bigs (A := QcA) d /\ restored (fst y) /\ forall o, public (fst y) (mkStrategy d o) end).
  Proof.
    intros E Hs. destruct (rankings_ok w E) as (rk & Kf & Hrk & Rr). unfold stake_allocations. rewrite Hrk. cbn [bind].
    rewrite (filter_ok w rk Kf false (fun p => negb (Nat.eqb (p_owner p) uid) && negb (p_private p)) E Rr). cbn [bind].
    set (el := filter _ _). assert (Hel : forall e, In e el -> exists r p, e = Some r /\ get (w_heap w) r = Some p /\ In r (values (w_pools w)) /\ p_private p = false).
    { intros e J. apply filter_In in J as [J' J]. destruct e as [r|]; [|discriminate]. destruct (get (w_heap w) r) as [p|] eqn:G; [|discriminate]. exists r, p. split; [reflexivity|]. split; [exact G|]. apply andb_prop in J as [_ J]. apply negb_true_iff in J. split; [|exact J].
      apply (Permutation_in _ (proj1 (proj2 Rr))) in J'. apply in_app_iff in J' as [J'|J']; [apply repeat_spec in J'; discriminate|]. apply in_map_iff in J' as (r' & [= ->] & J'). exact J'. }
    clearbody el. destruct el as [|e0 el]; [split; [exact E | exact I]|]. remember (e0 :: el) as ls. clear Heqls. unfold the_strategy. rewrite Hst. cbn [of_option bind].
    rewrite touches_zeros_keys. apply (kp_bind _ _ (fun w1 => es w1 /\ w_pools w1 = w_pools w)); [apply touches_kp; [exact Lu | | exact E]; intros id v J; left; apply in_map_iff in J as (y & [= <- <-] & _); reflexivity|].
    intros w1 H1 [E1 P1]. match goal with |- context [mapM ?f ls] => destruct (mapM_total f ls) as (pools & Hm) end.
    { intros e J. destruct (Hel e J) as (r & p & -> & _ & Jr & _). rewrite <- P1 in Jr. apply In_values in Jr as (id & Jr); [|apply (es_tidy _ E1)]. destruct (reg_ok w1 id r E1 Jr) as (q & G & _). unfold deref. rewrite G. cbn. eauto. }
    rewrite Hm. cbn [bind]. change (foldM (fun w e => touch_delegation uid w (fst e) (snd e)) (s_alloc st) w1) with (touches (A := QcA) uid (s_alloc st) w1).
    apply (kp_bind _ _ (fun w2 => es w2)). { eapply kp_weak; [apply touches_kp; [exact Lu | | exact E1]; intros id v J; right; exact (Ba id v J)|]. now intros x _ [Ex _]. }
    intros w2 H2 E2. cbn [kp fst snd]. split; [exact E2|]. split; [now apply (greedy_allocations_bigs QcA_ord)|]. split; [exact (proj2 (touches_recorded uid (s_alloc st) Lu Na Ba w1 w2 E1 H2))|].
    intros o id v J. cbn [s_alloc] in J. apply (in_map fst) in J. apply alloc_from in J as (p & Jp & Ip). cbn [fst] in Ip.
    destruct (touches_tw _ zeros_incl (zeros_in ks) w w1 E H1) as [_ T1]. destruct (touches_tw (s_alloc st) (incl_refl _) (fun i v J => or_intror (Ba i v J)) w1 w2 E1 H2) as [_ T2].
    destruct (mapM_In_inv _ _ _ _ Hm Jp) as (e & Je & He). destruct (Hel e Je) as (r & p0 & -> & G0 & Jr & Pv). unfold deref in He. apply of_option_ok in He. apply In_values in Jr as (i & Jr); [|apply (es_tidy _ E)].
    destruct (reg_ok w i r E Jr) as (p1 & G1 & I1 & _). rewrite G0 in G1. injection G1 as <-. destruct (tw_hk _ _ T1 r p0 G0) as (p2 & G2 & (A1 & _ & _ & _ & _ & A6)). rewrite He in G2. injection G2 as <-. destruct (tw_hk _ _ T2 r p He) as (p3 & G3 & (_ & _ & _ & _ & _ & B6)).
    exists r, p3. split; [rewrite (tw_pools _ _ T2), (tw_pools _ _ T1); congruence|]. split; [exact G3 | congruence].
  Qed.
  Lemma delegation_kp w (s : Qc) : es w -> kp (find_delegation_move w ag s) (fun y => es (fst y) /\ bigs (A := QcA) (s_alloc (snd y)) /\ s_owned (snd y) = [] /\ pays (fst y) (snd y) /\ public (fst y) (snd y)).
  Proof.
    intros E. unfold find_delegation_move. destruct (ltb (a := QcA) s min_stake_unit) eqn:Ls; [cbn; split; [exact E | split; [intros ? ? [] | split; [reflexivity | split; [now apply pays_nil | now apply public_nil]]]]|].
    eapply kp_bind; [exact (stake_allocations_kp w s E Ls)|]. intros [w' d] _ [E' Hd]. cbn [kp fst snd] in *. split; [exact E'|]. destruct d as [d|]; cbn [s_alloc s_owned].
    - destruct Hd as (B & Hr & Hq). split; [exact B|]. split; [reflexivity|]. split; [now apply pays_restored | apply Hq].
    - split; [intros ? ? []|]. split; [reflexivity | split; [now apply pays_nil | now apply public_nil]].
  Qed.

  (** ** operating pools *)
  Definition low w : Prop := forall r p, get (w_heap w) r = Some p -> (r < w_next w)%nat.
  (** pool objects are only added to a state [w0] *)
  Record loop w0 w : Prop := { lp_ej : ej w0 w; lp_heap : heap_ok w; lp_keeps : forall r p, get (w_heap w0) r = Some p -> get (w_heap w) r = Some p; lp_rank : w_rank w = w_rank w0; lp_total : w_total w = w_total w0; lp_phi : w_phi w = w_phi w0 }.
  Lemma loop_refl w : es w -> loop w w.
  Proof. intros E. constructor; [constructor; [apply E | reflexivity | reflexivity | lia] | apply E | auto | reflexivity | reflexivity | reflexivity]. Qed.
  Lemma reg_low w : es w -> low w -> forall r, In r (values (w_pools w)) -> (r < w_next w)%nat.
  Proof. intros E Hl r J. apply In_values in J as (id & J); [|apply (es_tidy _ E)]. destruct (reg_ok w id r E J) as (p & G & _). exact (Hl r p G). Qed.
  Lemma loop_alloc w0 w p : es w0 -> low w0 -> loop w0 w -> ok_pool p -> loop w0 (fst (alloc w p)).
  Proof.
    intros E Hl [J H K K2 K3 K4] Hp. constructor; [exact (AnyRank.ej_alloc m w0 w p (reg_low w0 E Hl) J)| | |exact K2|exact K3|exact K4].
    - intros r q G. cbn in G. rewrite get_set in G. destruct (Nat.eqb_spec (w_next w) r); [injection G as <-; exact Hp | exact (H r q G)].
    - intros r q G. assert (Lr := Hl r q G). assert (Ln := ej_next _ _ _ J). cbn. rewrite get_set_ne; [exact (K r q G) | lia].
  Qed.
  Lemma loop_store w0 w r p : es w0 -> low w0 -> loop w0 w -> (w_next w0 <= r)%nat -> ok_pool p -> loop w0 (store w r p).
  Proof.
    intros E Hl [J H K K2 K3 K4] Lr Hp. constructor; [exact (AnyRank.ej_store m w0 w r p (reg_low w0 E Hl) Lr J)| | |exact K2|exact K3|exact K4].
    - intros r' q G. cbn in G. rewrite get_set in G. destruct (Nat.eqb_spec r r'); [injection G as <-; exact Hp | exact (H r' q G)].
    - intros r' q G. assert (Lr' := Hl r' q G). cbn. rewrite get_set_ne; [exact (K r' q G) | lia].
  Qed.
  Lemma loop_idseq w0 w n : loop w0 w -> loop w0 (with_idseq n w).
  Proof. intros [[[J1 J2] J3 J4 J5] H K K2 K3 K4]. constructor; [constructor; [split; [exact J1 | exact J2] | exact J3 | exact J4 | exact J5] | exact H | exact K | exact K2 | exact K3 | exact K4]. Qed.
  Lemma loop_es w0 w : es w0 -> loop w0 w -> es w.
  Proof. intros E [J H _ _ _ _]. exact (es_of w0 w E J H). Qed.
  Lemma copies_kp w0 (todo : list (nat * nat)) : es w0 -> low w0 -> (forall id r, In (id, r) todo -> exists p, get (w_heap w0) r = Some p) -> kp (foldM (copy_one (A := QcA)) todo (w0, [])) (fun y => loop w0 (fst y)).
  Proof.
    intros E Hl H. apply kp_foldM; [now apply loop_refl|]. intros [w d] [id r] J Lp. cbn [fst] in Lp. destruct (H id r J) as (p & G). apply (lp_keeps _ _ Lp) in G. unfold copy_one, deepcopy, deref. rewrite G. cbn [of_option bind].
    exact (loop_alloc w0 w p E Hl Lp (lp_heap _ _ Lp _ _ G)).
  Qed.
  Lemma keep_kp w n : es w -> low w -> refs_ok w (values (s_owned st)) -> kp (pools_to_keep so w ag n) (fun y => loop w (fst y)).
  Proof.
    intros E Hl H. assert (Ow : forall id r, In (id, r) (s_owned st) -> exists p, get (w_heap w) r = Some p) by (intros id r J; apply H; apply (in_map snd) in J; exact J).
    unfold pools_to_keep, the_strategy. rewrite Hst. cbn [of_option bind].
    change (fun (acc : world QcA * dict nat) (e : nat * nat) => let '(w, d) := acc in let '(id, r) := e in let! wr := deepcopy w r in let '(w', r') := wr in Ok (w', set d id r')) with (copy_one (A := QcA)).
    destruct (Z.ltb_spec n (Z.of_nat (length (s_owned st)))); [|now apply copies_kp].
    match goal with |- context [mapM ?f (s_owned st)] => destruct (mapM_total f (s_owned st)) as (props & Hp) end.
    { intros [id r] J. destruct (Ow id r J) as (p & G). unfold deref. rewrite G. cbn. eauto. }
    rewrite Hp. cbn [bind]. eapply (kp_bind _ _ (fun todo => forall id r, In (id, r) todo -> get (s_owned st) id = Some r)).
    - match goal with |- kp (mapM ?f ?l) _ => assert (Z : kp (mapM f l) (fun _ => True)); [apply kp_mapM|] end.
      + intros id J. apply (kp_bind _ _ (fun _ => True)); [apply kp_key; auto | intros; exact I].
      + eapply kp_weak; [exact Z|]. cbn beta. intros todo Ht _ id r J. apply mapM_ok in Ht. clear -Ht J. induction Ht as [|id' e l l' He Ht IH]; [destruct J|]. destruct J as [->|J]; [|now apply IH]. apply bind_ok in He as (r' & Hr & [= <- <-]). now apply of_option_ok in Hr.
    - intros todo _ Ht. apply copies_kp; [exact E | exact Hl|]. intros id r J. apply Ht, get_In in J. now apply (Ow id r).
  Qed.
  Lemma made_ok n (pledge cost : Qc) (phi c : Qc) p : (1 <= n)%Z -> pledge_per_pool (A := QcA) (a_stake ag) (r_thr rs) n = Ok pledge -> cost_per_pool (A := QcA) n c phi = Ok cost -> Eval.priced (A := QcA) nonneg rs pledge cost p ->
    (p_stake p = pledge /\ p_delegators p = [] \/ exists p0, ok_pool p0 /\ p_stake p = sub (a := QcA) (p_stake p0) (sub (a := QcA) (p_pledge p0) pledge) /\ p_delegators p = p_delegators p0) -> ok_pool p.
  Proof.
    intros Hn Hp Hc P Q. assert (AF : agent_facts True True rs (a_stake ag)) by (split; intros _; [now apply Qclt_le_weak | split; [assumption | apply R]]).
    assert (F : NPF rs p). { eapply (E_NP_made False True True _ _ _ _ n p); [exact AF | exact Hn | exact Hp | exact Hc | exact P|]. destruct Q as [Q|(p0 & [(F0 & N0 & _) _] & Q1 & Q2)]; [now left | right; exists p0; auto]. }
    destruct Q as [[_ Q]|(p0 & [(_ & N0 & V0) D0] & _ & Q)]; (split; [split; [exact F|]|]); rewrite Q; auto; [split; [constructor | discriminate] | intros a []].
  Qed.
  (** the pool behind [r] has this pledge and cost, and is private if the pledge saturates it *)
  Definition pc (pledge cost : Qc) w r : Prop := exists p, get (w_heap w) r = Some p /\ p_pledge p = pledge /\ p_cost p = cost /\ p_private p = leb (a := QcA) (pool_threshold (A := QcA) rs pledge) pledge.
  Lemma pc_set (pledge cost : Qc) w r p x r' : p_pledge p = pledge -> p_cost p = cost -> p_private p = leb (a := QcA) (pool_threshold (A := QcA) rs pledge) pledge -> w_heap x = set (w_heap w) r p -> r' = r \/ pc pledge cost w r' -> pc pledge cost x r'.
  Proof. intros E1 E2 E0 E3 H. unfold pc. rewrite E3, get_set. destruct (Nat.eqb_spec r r') as [<-|Ne]; [eauto 6|]. destruct H as [->|H]; [contradiction | exact H]. Qed.
  Lemma adjust_ok w0 n (pledge cost c phi : Qc) ms : es w0 -> low w0 -> (1 <= n)%Z -> pledge_per_pool (A := QcA) (a_stake ag) (r_thr rs) n = Ok pledge -> cost_per_pool (A := QcA) n c phi = Ok cost -> Forall (margin_src (A := QcA) nonneg) ms ->
    forall todo w i, loop w0 w -> (forall id r, In (id, r) todo -> (w_next w0 <= r)%nat /\ exists p, get (w_heap w) r = Some p) -> (i + length todo <= length ms)%nat ->
    exists w' j, foldM (adjust_one ag pledge cost ms) todo (w, i) = Ok (w', j) /\ loop w0 w' /\ forall r, In r (map snd todo) \/ pc pledge cost w r -> pc pledge cost w' r.
  Proof.
    intros E Hl Hn Hp Hc Fm. induction todo as [|[id r] todo IH]; intros w i Lp H Li; cbn [foldM]; [exists w, i; split; [reflexivity | split; [exact Lp | intros r [[]|J]; exact J]]|]. cbn [length] in Li. destruct (H id r (or_introl eq_refl)) as (Lr & p & G). assert (Ew := es_rss _ (loop_es _ _ E Lp)).
    assert (A1 : exists p', adjust_pool w ag pledge cost ms i p = Ok p').
    { unfold adjust_pool. rewrite Ew. match goal with |- context [pool_set_profit ?rs ?p0] => destruct (profit_total rs p0 R) as (q & ->) end. cbn [bind]. destruct (margin_at_total ag w ms i q) as (x & ->); [lia|]. cbn. eauto. }
    destruct A1 as (p' & A1). unfold adjust_one at 1, deref. cbn [snd]. rewrite G. cbn [of_option bind]. rewrite A1. cbn [bind].
    destruct (adjust_spec (A := QcA) nonneg w ag pledge cost ms i p p' Fm ltac:(lia) A1) as (P1 & _ & _ & P4 & P5). rewrite Ew in P1.
    destruct (IH (store w r p') (S i)) as (w' & j & W1 & W2 & W3); [|intros id' r' J; split; [apply (H id'); now right | cbn [w_heap store with_heap]; rewrite get_set; destruct (Nat.eqb r r'); [eauto | apply (H id'); now right]] | lia |
      exists w', j; split; [exact W1|]; split; [exact W2|]; intros r' J; apply W3; cbn [map snd In] in J; destruct P1 as (P1a & P1b & P1c & _);
      destruct J as [[J|J]|J]; [right; apply (pc_set pledge cost w r p'); [assumption | assumption | assumption | reflexivity | now left] | now left | right; apply (pc_set pledge cost w r p'); [assumption | assumption | assumption | reflexivity | now right]]].
    apply loop_store; [assumption | assumption | assumption | assumption|]. apply (made_ok n pledge cost phi c p' Hn Hp Hc P1). right. exists p. split; [exact (lp_heap _ _ Lp _ _ G) | now split].
  Qed.
  Lemma draft_ok w0 n (pledge cost c phi : Qc) ms : es w0 -> low w0 -> (1 <= n)%Z -> pledge_per_pool (A := QcA) (a_stake ag) (r_thr rs) n = Ok pledge -> cost_per_pool (A := QcA) n c phi = Ok cost -> Forall (margin_src (A := QcA) nonneg) ms ->
    forall l w (d : dict nat), loop w0 w -> (forall i, In i l -> (i < length ms)%nat) -> exists w' d', foldM (draft_one ag pledge cost ms) l (w, d) = Ok (w', d') /\ loop w0 w' /\ (forall r, pc pledge cost w r -> pc pledge cost w' r) /\ forall id r, get d' id = Some r -> get d id = Some r \/ pc pledge cost w' r.
  Proof.
    intros E Hl Hn Hp Hc Fm. induction l as [|i l IH]; intros w d Lp H; cbn [foldM]; [exists w, d; auto|]. assert (Ew := es_rss _ (loop_es _ _ E Lp)). unfold draft_one at 1, next_pool_id. cbv beta iota zeta.
    set (w1 := with_idseq (S (w_idseq w)) w). assert (Lp1 : loop w0 w1) by now apply loop_idseq.
    assert (A1 : exists p, draft_pool w1 ag pledge cost ms i (S (w_idseq w)) = Ok p).
    { unfold draft_pool, new_pool. cbn [w1 w_rss with_idseq]. rewrite Ew, potential_profit_ok by assumption. cbn [bind]. match goal with |- context [margin_at ?w1 ag ms i ?p0] => destruct (margin_at_total ag w1 ms i p0) as (x & ->) end; [apply H; now left|]. cbn. eauto. }
    destruct A1 as (p & A1). rewrite A1. cbn [bind].
    destruct (draft_spec (A := QcA) nonneg w1 ag pledge cost ms i _ p Fm (H i (or_introl eq_refl)) A1) as (P1 & _ & _ & P4 & P5). change (w_rss w1) with (w_rss w) in P1. rewrite Ew in P1.
    change (alloc w1 p) with (fst (alloc w1 p), w_next w1). cbv beta iota.
    assert (Pc : forall r', r' = w_next w1 \/ pc pledge cost w r' -> pc pledge cost (fst (alloc w1 p)) r') by (destruct P1 as (P1a & P1b & P1c & _); intros r'; apply (pc_set pledge cost w (w_next w1) p); [assumption | assumption | assumption | reflexivity]).
    destruct (IH (fst (alloc w1 p)) (set d (S (w_idseq w)) (w_next w1))) as (w' & d' & W1 & W2 & W3 & W4); [|intros; apply H; now right |
      exists w', d'; split; [exact W1|]; split; [exact W2|]; split; [intros r' J; apply W3, Pc; now right|];
      intros id r' J; destruct (W4 id r' J) as [J'|J']; [|now right]; rewrite get_set in J'; destruct (Nat.eqb (S (w_idseq w)) id); [|now left]; right; apply W3, Pc; left; congruence].
    apply loop_alloc; [assumption | assumption | assumption|]. apply (made_ok n pledge cost phi c p Hn Hp Hc P1). now left.
  Qed.
  (** the pools of a move have the same pledge and cost, what is left is delegated *)
  Definition split_move w n w2 new : Prop := exists w3 (pledge cost : Qc), loop w w3 /\ pledge_per_pool (A := QcA) (a_stake ag) (r_thr rs) n = Ok pledge /\ cost_per_pool (A := QcA) n (a_cost ag) (w_phi w) = Ok cost /\
    find_delegation_for_operator w3 ag (pledge * Qc_ofZ n) = Ok (w2, s_alloc new) /\ forall id r, get (s_owned new) id = Some r -> pc pledge cost w3 r.
  Lemma operator_kp w n ms w1 d : es w -> low w -> loop w w1 -> (1 <= n)%Z -> Forall (margin_src (A := QcA) nonneg) ms -> length ms = Z.to_nat n -> fresh_own w w1 uid d -> (Z.of_nat (length d) <= n)%Z ->
    kp (find_operator_move w1 ag n d ms) (fun y => es (fst y) /\ pays (fst y) (snd y) /\ split_move w n (fst y) (snd y) /\ public (fst y) (snd y)).
  Proof.
    intros E Hl Lp Hn Fm Lm Fd Ld. assert (Ew := es_rss _ (loop_es _ _ E Lp)).
    destruct (pledge_ok rs R n (a_stake ag)) as (pledge & Hp & Pp); [lia | assumption|]. destruct (cost_ok n (a_cost ag) (w_phi w1)) as (cost & Hc); [lia|]. assert (Hc' := Hc). rewrite (lp_phi _ _ Lp) in Hc'.
    unfold find_operator_move, agent_pledge_per_pool, agent_cost_per_pool. rewrite Ew, Hp. cbn [bind]. rewrite Hc. cbn [bind].
    change (fun (acc : world QcA * nat) (e : nat * nat) => let '(w, i) := acc in let! p := deref w (snd e) in let! p' := adjust_pool w ag pledge cost ms i p in Ok (store w (snd e) p', Datatypes.S i)) with (adjust_one ag pledge cost ms).
    change (fun (acc : world QcA * dict nat) (i : nat) => let '(w, d) := acc in let '(w', id) := next_pool_id w in let! p := draft_pool w' ag pledge cost ms i id in
      let '(w'', r) := alloc w' p in Ok (w'', set d id r)) with (draft_one ag pledge cost ms).
    destruct (adjust_ok w n pledge cost (a_cost ag) (w_phi w1) ms E Hl Hn Hp Hc Fm d w1 0%nat Lp) as (w2 & i2 & H2 & Lp2 & Pc2).
    { intros id r J. destruct (proj2 Fd id r J) as (L1 & p & G & _). eauto. } { rewrite Lm. lia. }
    rewrite H2. cbn [bind fst].
    destruct (draft_ok w n pledge cost (a_cost ag) (w_phi w1) ms E Hl Hn Hp Hc Fm (seq (length d) (Z.to_nat n - length d)) w2 d Lp2) as (w3 & d3 & H3 & Lp3 & Pc3 & Pd3). { intros i J. apply in_seq in J. lia. }
    rewrite H3. cbn [bind]. assert (E3 := loop_es _ _ E Lp3).
    apply (kp_bind _ _ (fun y => es (fst y) /\ (forall o, pays (fst y) (mkStrategy (snd y) o)) /\ forall o, public (fst y) (mkStrategy (snd y) o))).
    - unfold find_delegation_for_operator. destruct (ltb _ _); [|cbn; split; [exact E3 | split; intros o; [now apply pays_nil | now apply public_nil]]].
      eapply kp_bind; [exact (delegation_kp w3 _ E3)|]. intros [w4 s4] _ (E4 & _ & _ & P4 & Q4). cbn [kp fst snd] in *. split; [exact E4 | split; intros o; [exact P4 | exact Q4]].
    - intros [w4 al] H4 (E4 & P4 & Q4). cbn [kp fst snd] in *. split; [exact E4|]. split; [apply P4|]. split; [|apply Q4]. exists w3, pledge, cost. split; [exact Lp3|]. split; [exact Hp|]. split; [exact Hc'|]. split; [exact H4|]. cbn [s_owned].
      intros id r G. destruct (Pd3 id r G) as [J|J]; [|exact J]. apply Pc3, Pc2. left. apply in_map_iff. exists (id, r). split; [reflexivity | now apply get_In].
  Qed.
  Notation full := (AnyBooks.full anyK anyST anyC).
  Lemma refs_of w (y : Qc) o : opt_ok (A := QcA) anyK anyC w uid y (Some o) -> refs_ok w (values (s_owned o)).
  Proof.
    intros H r J. destruct (H o eq_refl) as (N & _ & ps & F & _). apply In_values in J as (id & J); [|exact N]. destruct (mine_get _ _ _ _ _ _ F J) as (p & G & _). eauto.
  Qed.
  (** the number of pools a myopic agent decides on pays if any does *)
  Definition pays_off w n : Prop := a_profile ag = Myopic -> able (a_stake ag) (a_cost ag) (w_phi w) -> forall pledge cost : Qc, pledge_per_pool (A := QcA) (a_stake ag) (r_thr rs) n = Ok pledge -> cost_per_pool (A := QcA) n (a_cost ag) (w_phi w) = Ok cost -> 0 < pot_profit rs pledge cost.
  Lemma search_pays w (u : Z -> Qc) t : es w -> (forall n, (1 <= n <= r_k rs)%Z -> exists ms, margins_and_utility w ag n = Ok (ms, u n)) -> (1 <= t <= r_k rs)%Z -> ((1 < t)%Z -> ltb (a := QcA) (u t) (u (t - 1)%Z) = false) -> ((t < r_k rs)%Z -> ltb (a := QcA) (u t) (u (t + 1)%Z) = false) -> pays_off w t.
  Proof.
    intros E D Ht N1 N2 My (n & pl & co & Hn & Hpl & Hco & Pn) pledge cost Hp Hc.
    apply (net_sign rs R (a_stake ag) (a_cost ag) (w_phi w) t pledge cost); [lia | exact Hp | exact Hc|]. apply (net_sign rs R (a_stake ag) (a_cost ag) (w_phi w) n pl co) in Pn; [|lia | exact Hpl | exact Hco].
    apply (local_max_profit rs R (a_stake ag) (a_cost ag) (w_phi w) (r_k rs) u t n); [|exact Ht | exact Hn | exact Pn | |].
    - intros i Hi. destruct (D i Hi) as (ms & Em). destruct (pledge_ok rs R i (a_stake ag)) as (pi & Hpi & Pi); [lia | assumption|]. destruct (cost_ok i (a_cost ag) (w_phi w)) as (ci & Hci); [lia|].
      destruct (myopic_utility rs R w ag (es_rss _ E) My i ms (u i) pi ci) as [U1 U2]; [lia | exact Hpi | exact Hci | exact Pi | exact (thr_pos _ R pi Rcip Pi) | exact Em|].
      assert (Np := net_profit rs R (a_stake ag) (a_cost ag) (w_phi w) i pi ci ltac:(lia) Hpi Hci). assert (Ns := net_sign rs R (a_stake ag) (a_cost ag) (w_phi w) i pi ci ltac:(lia) Hpi Hci). split.
      + intros Le. rewrite <- Np. apply U1. apply Qcnot_lt_le. intros Z. apply Ns in Z. exact (Qclt_not_le _ _ Z Le).
      + intros Lt. apply U2. now apply Ns.
    - intros L1 Z. specialize (N1 L1). cbn [ltb QcA] in N1. destruct (Qc_ltb_spec (u t) (u (t - 1)%Z)); [discriminate | contradiction].
    - intros L1 Z. specialize (N2 L1). cbn [ltb QcA] in N2. destruct (Qc_ltb_spec (u t) (u (t + 1)%Z)); [discriminate | contradiction].
  Qed.
  Lemma choose_kp w : es w -> worth w -> hp w -> opt_ok anyK anyC w uid (a_stake ag) (a_strategy ag) -> kp (choose_pool_strategy so w ag) (fun y => es (fst (fst y)) /\ forall op, snd y = Some op -> NoDup (keys (s_owned op)) /\ expected_utility (fst (fst y)) ag op = Ok (snd (fst y)) /\ exists n, (1 <= n <= r_k rs)%Z /\ split_move w n (fst (fst y)) op /\ pays_off w n /\ public (fst (fst y)) op /\ w_pools (fst (fst y)) = w_pools w /\ hk w (fst (fst y))).
  Proof.
    intros E Hp Hh Ho. assert (Hl : low w) by (intros r p G; now apply (proj1 Hh) in G). assert (Rf : refs_ok w (values (s_owned st))) by (rewrite Hst in Ho; exact (refs_of _ _ _ Ho)).
    unfold choose_pool_strategy. set (u := fun t => match margins_and_utility w ag t with Ok (_, y) => y | Err _ => zero (a := QcA) end). rewrite (es_rss _ E).
    assert (D : defined_on (margins_and_utility w ag) (r_k rs) u). { intros t Ht. destruct (margins_ok w t E Rf Ht) as (ms & y & Em). exists ms. unfold u. now rewrite Em. }
    destruct (C21_search_ends_at_a_local_maximum QcA QcA_ord _ _ _ u Rk D) as (t & ms & Es & Ht & Em & Mx1 & Mx2). rewrite Es. cbn [bind]. assert (Po := search_pays w u t E D Ht Mx1 Mx2).
    destruct (Z.ltb_spec 0 t); [|lia]. apply (margins_src' w) in Em as [Fm Lm]; [|assumption].
    eapply kp_bind; [exact (keep_kp w t E Hl Rf)|]. intros [w1 d] Hk Lp. cbn [fst] in Lp.
    destruct (pools_to_keep_ev so so_perm anyK anyC w w ag t w1 d _ (ev_refl _ Hh) Ho Hk) as (V1 & Fd & Ld & _).
    eapply kp_bind; [apply (operator_kp w t ms w1 d E Hl Lp ltac:(lia) Fm ltac:(apply Lm; lia) Fd); lia|]. intros [w2 new] Hm (E2 & P2 & Sm & Q2). cbn [fst snd] in *.
    destruct (operator_move_ev anyK anyST anyC ltac:(now intros) w w1 ag t d ms w2 new Hh I ltac:(lia) I V1 Fd ltac:(lia) Hm) as (V2 & S2 & _).
    apply (kp_bind _ _ (fun _ => True)); [|intros y Hy _; cbn [kp fst snd]; split; [exact E2|]; intros op [= <-]; split; [apply S2|]; split; [exact Hy | exists t; split; [lia | split; [exact Sm | split; [exact Po | split; [exact Q2 | split; [exact (ev_pools _ _ V2) | exact (ev_hk _ _ V2)]]]]]]]. apply (expected_kp w2 new E2); [|apply (refs_of _ (a_stake ag)); intros z [= <-]; exact S2 | exact P2].
    apply seen_public; [|exact Q2]. exact (worth_of w w2 E Hp (ev_pools _ _ V2) (ev_hk _ _ V2) (es_heap _ E2)).
  Qed.
  (** ** pools that are opened are worth having: non-myopic agents *)
  Section Profitable.
  Lemma touches_zeroed (l : list nat) : forall w x, es w -> touches (A := QcA) uid (zeros (A := QcA) l) w = Ok x ->
    forall id r q, In id l \/ (forall p, get (w_heap w) r = Some p -> get (p_delegators p) uid = None) -> get (w_pools w) id = Some r -> get (w_heap x) r = Some q -> get (p_delegators q) uid = None.
  Proof.
    induction l as [|i l IH]; intros w x E H id r q C G Gq; unfold touches in H; cbn [zeros map foldM] in H; [injection H as <-; destruct C as [[]|C]; now apply C|].
    apply bind_ok in H as (w1 & H1 & H). cbn [fst snd] in H1. assert (K := touch_kp uid w i 0 E (or_introl eq_refl) Lu). change (zero (a := QcA)) with (0 : Qc) in H1. rewrite H1 in K. destruct K as (E1 & P1 & r0 & p0 & G0 & Gp0 & Hh).
    apply (IH w1 x E1 H id r q); [|rewrite P1; exact G | exact Gq]. destruct C as [[<-|J]|C]; [right | now left | right].
    - intros p. rewrite G in G0. injection G0 as <-. rewrite Hh, get_set_eq. intros [= <-]. destruct (reg_ok w i r E G) as (q' & Gq' & _ & (_ & N & _)). rewrite Gp0 in Gq'. injection Gq' as <-. rewrite upd_get by exact N. now rewrite Nat.eqb_refl.
    - intros p. rewrite Hh, get_set. destruct (Nat.eqb_spec r0 r) as [->|]; [|apply C]. intros [= <-]. destruct (reg_ok w i r E G0) as (q' & Gq' & _ & (_ & N & _)). rewrite Gp0 in Gq'. injection Gq' as <-. rewrite upd_get by exact N. now rewrite Nat.eqb_refl.
  Qed.
  (** the same delegations make the same stake *)
  Lemma stake_eq p q : sound_pool rs p -> sound_pool rs q -> p_pledge q = p_pledge p -> (forall b, get (p_delegators q) b = get (p_delegators p) b) -> p_stake q = p_stake p.
  Proof.
    intros (F & N & V) (F2 & N2 & _) E D. rewrite (pf_stake _ _ _ _ F), (pf_stake _ _ _ _ F2), E. f_equal. apply total_ext; try assumption. intros k v J. apply Qcle_trans with MIN; [discriminate|]. apply ltb_MIN_false. now apply (V k).
  Qed.
  Lemma tw_worth w x : es w -> es x -> tw w x -> worth w -> worth x.
  Proof.
    intros E X T W id r p G Gp Pv. rewrite (tw_pools _ _ T) in G. destruct (reg_ok w id r E G) as (p0 & G0 & _ & S0). destruct (tw_reg _ _ T id r p0 G G0) as (q & Gq & Tq & _). rewrite Gp in Gq. injection Gq as <-.
    destruct (terms_pp p0 p S0 (proj1 (es_heap _ X _ _ Gp)) Tq) as [-> _]. apply (W id r p0 G G0). destruct Tq as (_ & _ & _ & _ & _ & <-). exact Pv.
  Qed.
  (** pools open to the agent, in the order of the ranking *)
  Definition eligible w : list (option nat) := filter (fun e => match e with None => false | Some r => match get (w_heap w) r with Some p => negb (Nat.eqb (p_owner p) uid) && negb (p_private p) | None => false end end) (sl_elems (w_rank w)).
  Hypothesis NMy : a_profile ag = NonMyopic.
  Lemma allocations_inv w (s : Qc) x d : es w -> stake_allocations w ag s = Ok (x, d) ->
    (eligible w = [] /\ d = None /\ x = w) \/
    (exists y pools, touches (A := QcA) uid (zeros (A := QcA) ks) w = Ok y /\ mapM (fun e => match e with None => Err AttributeError | Some r => deref y r end) (eligible w) = Ok pools /\
       touches (A := QcA) uid (s_alloc st) y = Ok x /\ d = Some (greedy_allocations rs pools s)).
  Proof.
    intros E H. unfold stake_allocations, rankings in H. rewrite NMy in H. cbn [bind] in H. rewrite (filter_ok w _ _ false (fun p => negb (Nat.eqb (p_owner p) uid) && negb (p_private p)) E (proj1 (proj2 (es_tidy _ E)))) in H. cbn [bind] in H.
    change (filter _ (sl_elems (w_rank w))) with (eligible w) in H. destruct (eligible w) as [|e0 el]; [injection H as <- <-; auto|]. right. remember (e0 :: el) as ls. clear Heqls.
    unfold the_strategy in H. rewrite Hst in H. cbn [of_option bind] in H. rewrite touches_zeros_keys in H. apply bind_ok in H as (y & H1 & H). apply bind_ok in H as (pools & H2 & H). apply bind_ok in H as (x' & H3 & H). injection H as <- <-.
    assert (K := touches_kp uid (zeros (A := QcA) ks) Lu (zeros_in ks) w E). rewrite H1 in K. destruct K as [Ey _]. exists y, pools. rewrite <- (es_rss _ Ey). auto.
  Qed.
  Lemma allocations_tw w (s : Qc) x d : es w -> stake_allocations w ag s = Ok (x, d) -> es x /\ tw w x /\ (d <> None -> restored x).
  Proof.
    intros E H. apply allocations_inv in H as [(_ & -> & ->)|(y & pools & H1 & _ & H3 & ->)]; [split; [exact E | split; [apply tw_refl | congruence]] | | exact E].
    destruct (touches_tw _ zeros_incl (zeros_in ks) w y E H1) as [Ey Ty]. destruct (touches_tw (s_alloc st) (incl_refl _) (fun i v J => or_intror (Ba i v J)) y x Ey H3) as [Ex Tx].
    split; [exact Ex|]. split; [exact (tw_trans _ _ _ Ty Tx)|]. intros _. exact (proj2 (touches_recorded uid (s_alloc st) Lu Na Ba y x Ey H3)).
  Qed.
  Lemma eligible_reg w r : es w -> In (Some r) (eligible w) -> exists id p, get (w_pools w) id = Some r /\ get (w_heap w) r = Some p /\ p_id p = id /\ sound_pool rs p.
  Proof.
    intros E J. apply filter_In in J as [J _]. assert (RK := proj1 (proj2 (es_tidy _ E))). apply (Permutation_in _ (proj1 (proj2 RK))) in J. apply in_app_iff in J as [J|J]; [apply repeat_spec in J; discriminate|]. apply in_map_iff in J as (r' & [= ->] & J).
    apply In_values in J as (id & J); [|apply (es_tidy _ E)]. destruct (reg_ok w id r E J) as (p & P1 & P2 & P3). exists id, p. auto.
  Qed.
  Lemma eligible_nodup w : es w -> NoDup (eligible w).
  Proof.
    intros E. assert (RK := proj1 (proj2 (es_tidy _ E))). unfold eligible. eapply Permutation_NoDup; [symmetry; apply filter_perm; exact (proj1 (proj2 RK))|]. rewrite filter_app.
    match goal with |- NoDup (?a ++ _) => assert (Z : a = []); [|rewrite Z] end. { generalize m as n. induction n as [|n IH]; [reflexivity | exact IH]. }
    cbn [app]. apply NoDup_filter. assert (N := AnyRank.own_nodup w (proj1 (es_tidy _ E))). clear -N. induction (values (w_pools w)) as [|r l IH]; [constructor|]. apply NoDup_cons_iff in N as [N1 N2]. cbn. constructor; [|now apply IH]. intros J. apply in_map_iff in J as (r' & [= ->] & J). contradiction.
  Qed.
  Lemma eligible_tw w x : es w -> tw w x -> eligible x = eligible w.
  Proof.
    intros E T. unfold eligible. rewrite (tw_rank _ _ T). apply filter_ext_in. intros [r|] J; [|reflexivity]. assert (RK := proj1 (proj2 (es_tidy _ E))). apply (Permutation_in _ (proj1 (proj2 RK))) in J. apply in_app_iff in J as [J|J]; [apply repeat_spec in J; discriminate|]. apply in_map_iff in J as (r' & [= ->] & J).
    apply In_values in J as (id & J); [|apply (es_tidy _ E)]. destruct (reg_ok w id r E J) as (p & P1 & _). destruct (tw_reg _ _ T id r p J P1) as (q & Gq & (_ & T2 & _ & _ & _ & T6) & _). rewrite P1, Gq, T2, T6. reflexivity.
  Qed.
  Lemma rooms_same w x y z (pw px : list (pool QcA)) : es w -> es x -> tw w x -> touches (A := QcA) uid (zeros (A := QcA) ks) w = Ok y -> touches (A := QcA) uid (zeros (A := QcA) ks) x = Ok z -> forall l, (forall e, In e l -> In e (eligible w)) -> forall pw px,
    mapM (fun e => match e with None => Err AttributeError | Some r => deref y r end) l = Ok pw -> mapM (fun e => match e with None => Err AttributeError | Some r => deref z r end) l = Ok px ->
    map (fun p => (p_id p, room (A := QcA) rs p)) px = map (fun p => (p_id p, room (A := QcA) rs p)) pw /\ Forall2 (fun e p => exists r id, e = Some r /\ get (w_pools w) id = Some r /\ p_id p = id) l pw.
  Proof.
    intros Ew Ex T Hy Hz. clear pw px. destruct (touches_tw _ zeros_incl (zeros_in ks) w y Ew Hy) as [Ey Ty]. destruct (touches_tw _ zeros_incl (zeros_in ks) x z Ex Hz) as [Ez Tz].
    induction l as [|e l IH]; intros Hl pw px H1 H2; cbn [mapM] in H1, H2; [injection H1 as <-; injection H2 as <-; split; [reflexivity | constructor]|].
    apply bind_ok in H1 as (a & A1 & H1). apply bind_ok in H1 as (pw' & H1 & E1). injection E1 as <-. apply bind_ok in H2 as (b & B1 & H2). apply bind_ok in H2 as (px' & H2 & E2). injection E2 as <-.
    destruct (IH (fun e J => Hl e (or_intror J)) pw' px' H1 H2) as [I1 I2]. destruct e as [r|]; [|discriminate]. unfold deref in A1, B1. apply of_option_ok in A1, B1.
    destruct (eligible_reg w r Ew (Hl (Some r) (or_introl eq_refl))) as (id & p & G & Gp & Ip & Sp0). destruct (tw_reg _ _ T id r p G Gp) as (p3 & Gp3 & T3 & D3 & S3).
    assert (G3 : get (w_pools x) id = Some r) by (rewrite (tw_pools _ _ T); exact G).
    destruct (tw_reg _ _ Ty id r p G Gp) as (a' & Ga & Ta & Da & Sa). rewrite A1 in Ga. injection Ga as <-. destruct (tw_reg _ _ Tz id r p3 G3 Gp3) as (b' & Gb & Tb & Db & Sb). rewrite B1 in Gb. injection Gb as <-.
    assert (Tt := terms_trans _ _ _ T3 Tb). assert (Eq : p_pledge b = p_pledge a) by (destruct Tt as (_ & _ & _ & -> & _); destruct Ta as (_ & _ & _ & -> & _); reflexivity).
    assert (Ei : p_id b = p_id a) by (destruct Tt as (-> & _); destruct Ta as (-> & _); reflexivity).
    assert (Es : p_stake b = p_stake a).
    { apply stake_eq; [apply (es_heap _ Ey _ _ A1) | apply (es_heap _ Ez _ _ B1) | exact Eq|]. intros k. destruct (Nat.eq_dec k uid) as [->|Nk]; [|now rewrite Db, D3, Da by assumption].
      destruct (in_dec Nat.eq_dec id ks) as [J|J]; [|now rewrite Sb, S3, Sa by assumption]. rewrite (touches_zeroed ks w y Ew Hy id r a (or_introl J) G A1). exact (touches_zeroed ks x z Ex Hz id r b (or_introl J) G3 B1). }
    split; [cbn [map]; rewrite I1; f_equal; unfold room; now rewrite Ei, Eq, Es|]. constructor; [|exact I2]. exists r, id. split; [reflexivity|]. split; [exact G|]. destruct Ta as (-> & _). exact Ip.
  Qed.
  Definition got (d : option (dict Qc)) : dict Qc := match d with Some d => d | None => [] end.
  Lemma allocations_mono w x (s s' : Qc) y d z d' : es w -> es x -> tw w x -> s' <= s -> stake_allocations w ag s = Ok (y, d) -> stake_allocations x ag s' = Ok (z, d') ->
    forall id v', get (got d') id = Some v' -> exists v, get (got d) id = Some v /\ v' <= v.
  Proof.
    intros Ew Ex T Ls H1 H2 id v' J. apply allocations_inv in H1; [|exact Ew]. apply allocations_inv in H2; [|exact Ex]. rewrite (eligible_tw w x Ew T) in H2.
    destruct H2 as [(_ & -> & _)|(y2 & px & Z2 & M2 & _ & ->)]; [discriminate|]. destruct H1 as [(El & -> & _)|(y1 & pw & Z1 & M1 & _ & ->)].
    - rewrite El in M2. cbn in M2. injection M2 as <-. cbn in J. unfold greedy_allocations in J. cbn in J. discriminate.
    - destruct (rooms_same w x y1 y2 [] [] Ew Ex T Z1 Z2 (eligible w) (fun e J => J) pw px M1 M2) as [Er F]. cbn [got] in *. rewrite (greedy_allocations_ext rs px pw s' Er) in J.
      apply (greedy_mono rs pw s' s id v'); [|exact Ls | exact J]. assert (N := eligible_nodup w Ew). clear -F N. induction F as [|e p l pw (r & i & -> & G & Ip) F IH]; [constructor|]. apply NoDup_cons_iff in N as [N1 N2]. cbn. constructor; [|now apply IH].
      intros J. apply N1. apply in_map_iff in J as (q & Eq & J). apply In_nth_error in J as (n & Jn). clear IH N1 N2. revert n Jn. induction F as [|e q' l pw (r' & i' & -> & G' & Iq') F IH]; intros [|n] Jn; cbn in Jn; try discriminate.
      + injection Jn as ->. left. rewrite <- Iq', Eq, Ip, G in G'. congruence.
      + right. now apply (IH n).
  Qed.
  (** the value of a delegation, spelled out *)
  Lemma value_eq w id r p : es w -> 0 < p_pp p -> restored w -> get (w_pools w) id = Some r -> get (w_heap w) r = Some p ->
    exists n c : Qc, 0 < n /\ 0 <= c /\ forall a : Qc, 0 <= a -> dval ag w id a = Qcmax ((1 - p_margin p) * (a / Qcmax n (c + a)) * (reward rs (p_pledge p) (Qcmax n (c + a)) - p_cost p)) 0.
  Proof.
    intros E W Rd G Gp. destruct (ranked_ok w id r E) as (n & En & Pn); [intros p' Gp'; rewrite Gp in Gp'; injection Gp' as <-; exact W | exact G|]. destruct (reg_ok w id r E G) as (q & Gq & Iq & Sq). rewrite Gp in Gq. injection Gq as <-. exists n, (p_stake p - prev st id). split; [exact Pn|]. split.
    - unfold prev. destruct (sound_stake _ _ Sq). destruct (get (s_alloc st) id) as [v|] eqn:Ev; [|qlra]. apply get_In in Ev. assert (Z := sound_without _ _ _ _ Sq (Rd id v r p Ev G Gp)). qlra.
    - intros a Ha. unfold dval. rewrite G. unfold del_utility_pool, the_strategy. rewrite Hst, NMy. cbn [of_option bind]. unfold deref. rewrite Gp. cbn [of_option bind]. rewrite Iq, En. cbn [bind]. rewrite pmax_max. fold (prev st id). cbn [add sub QcA].
      rewrite (es_rss _ E), (del_util_ok _ R); [reflexivity|]. apply Qc_pos_neq. eapply Qclt_le_trans; [exact Pn | apply Qcmax_l].
  Qed.
  (** the pool is worth having if it is in operation *)
  Definition good_at w id : Prop := forall r p, get (w_pools w) id = Some r -> get (w_heap w) r = Some p -> 0 < p_pp p.
  Lemma value_nonneg w id (a : Qc) : es w -> good_at w id -> restored w -> 0 <= a -> 0 <= dval ag w id a.
  Proof.
    intros E W Rd Ha. destruct (get (w_pools w) id) as [r|] eqn:G; [|unfold dval; rewrite G; apply Qcle_refl]. destruct (reg_ok w id r E G) as (p & P1 & _).
    destruct (value_eq w id r p E (W r p G P1) Rd G P1) as (n & c & _ & _ & Ev). rewrite (Ev a Ha). apply Qcmax_r.
  Qed.
  Lemma value_mono w id (a a' : Qc) : es w -> good_at w id -> restored w -> 0 <= a -> a <= a' -> dval ag w id a <= dval ag w id a'.
  Proof.
    intros E W Rd Ha La. destruct (get (w_pools w) id) as [r|] eqn:G; [|unfold dval; rewrite G; apply Qcle_refl]. destruct (reg_ok w id r E G) as (p & P1 & _ & P3). destruct (sound_stake _ _ P3) as [P6 _].
    destruct (value_eq w id r p E (W r p G P1) Rd G P1) as (n & c & Pn & C & Ev). rewrite (Ev a Ha), (Ev a') by qlra. assert (Mg := pf_margin _ _ _ _ (proj1 P3)).
    assert (Ac : 0 <= (a' - a) * c) by (apply Qcmult_nonneg; qlra).
    assert (Gen : forall s s' : Qc, 0 < s -> 0 < s' -> s <= s' -> a * s' <= a' * s -> Qcmax ((1 - p_margin p) * (a / s) * (reward rs (p_pledge p) s - p_cost p)) 0 <= Qcmax ((1 - p_margin p) * (a' / s') * (reward rs (p_pledge p) s' - p_cost p)) 0).
    { intros s s' H1 H2 H3 H4. apply share_mono; [apply Mg | now apply Qcdiv_nonneg | now apply ratio_mono |]. assert (reward rs (p_pledge p) s <= reward rs (p_pledge p) s'); [apply reward_mono_stake; [assumption | qlra | assumption]|]. qlra. }
    assert (N1 : n <= Qcmax n (c + a)) by apply Qcmax_l. assert (N2 : n <= Qcmax n (c + a')) by apply Qcmax_l. apply Gen; [qlra | qlra | apply Qcmax_lub; [apply Qcmax_l | eapply Qcle_trans; [|apply Qcmax_r]; qlra]|].
    assert (M : c + a <= Qcmax n (c + a)) by apply Qcmax_r.
    destruct (Qclt_le_dec n (c + a')) as [Lt|Lt].
    - replace (Qcmax n (c + a')) with (c + a') by (symmetry; unfold Qcmax; qcase; intros; qlra). assert (Q1 : 0 <= a' * (Qcmax n (c + a) - (c + a))) by (apply Qcmult_nonneg; qlra). apply (le_by _ _ (a' * (Qcmax n (c + a) - (c + a)) + (a' - a) * c)); [qlra | ring].
    - replace (Qcmax n (c + a')) with n by (symmetry; unfold Qcmax; qcase; intros; qlra). assert (Q1 : 0 <= (a' - a) * n) by (apply Qcmult_nonneg; qlra). assert (Q2 : 0 <= a' * (Qcmax n (c + a) - n)) by (apply Qcmult_nonneg; qlra). apply (le_by _ _ ((a' - a) * n + a' * (Qcmax n (c + a) - n))); [qlra | ring].
  Qed.
  Lemma value_same w x id (a : Qc) : es w -> es x -> tw w x -> restored w -> restored x -> dval ag x id a = dval ag w id a.
  Proof.
    intros E X Tw R1 R2. unfold dval. rewrite (tw_pools _ _ Tw). destruct (get (w_pools w) id) as [r|] eqn:G; [|reflexivity]. assert (G2 : get (w_pools x) id = Some r) by (now rewrite (tw_pools _ _ Tw)).
    destruct (reg_ok w id r E G) as (p & P1 & P2 & P3). destruct (tw_reg _ _ Tw id r p G P1) as (q & Q1 & Tq & Dq & Sq). assert (Q3 := proj1 (es_heap _ X _ _ Q1)). destruct (terms_pp p q P3 Q3 Tq) as [Ep Ed]. destruct Tq as (T1 & T2 & T3 & T4 & T5 & T6).
    assert (Ek : p_stake q = p_stake p).
    { apply stake_eq; try assumption. intros b. destruct (Nat.eq_dec b uid) as [->|Nb]; [|now apply Dq]. destruct (in_dec Nat.eq_dec id ks) as [J|J]; [|now rewrite (Sq J)].
      apply in_map_iff in J as ([i v] & Ei & J). cbn in Ei. subst i. now rewrite (R1 id v r p J G P1), (R2 id v r q J G2 Q1). }
    assert (Key : pool_key q = pool_key p) by (unfold pool_key; now rewrite Ed, Ep, T1).
    assert (Ns : non_myopic_stake x r (w_rank x) = non_myopic_stake w r (w_rank w)).
    { unfold non_myopic_stake, deref. rewrite P1, Q1, (tw_rank _ _ Tw). cbn [of_option bind]. rewrite Key. destruct (sl_index (pool_key p) (Some r) (w_rank w)) as [i|]; [|reflexivity]. cbn [bind].
      match goal with |- bind (mapM ?f ?l) _ = bind (mapM ?g ?l) _ => assert (Em : mapM f l = mapM g l) end.
      { apply mapM_ext. intros e J. assert (J' : In e (sl_elems (w_rank w))) by (rewrite <- (firstn_skipn i); apply in_app_iff; now left).
        assert (RK := proj1 (proj2 (es_tidy _ E))). apply (Permutation_in _ (proj1 (proj2 RK))) in J'. apply in_app_iff in J' as [J'|J']; [apply repeat_spec in J'; now subst e|]. apply in_map_iff in J' as (r' & <- & J').
        apply In_values in J' as (id' & J'); [|apply (es_tidy _ E)]. destruct (reg_ok w id' r' E J') as (p' & P1' & _). destruct (tw_reg _ _ Tw id' r' p' J' P1') as (q' & Q1' & (_ & _ & _ & T4' & _) & _).
        cbn beta iota. rewrite P1', Q1', (es_rss _ E), (es_rss _ X). cbn [of_option bind]. now rewrite T4'. }
      rewrite Em, (es_rss _ E), (es_rss _ X), (tw_total _ _ Tw), Ek, T4. reflexivity. }
    unfold del_utility_pool. rewrite NMy. destruct (the_strategy ag) as [s0|]; [|reflexivity]. cbn [bind]. unfold deref. rewrite P1, Q1. cbn [of_option bind]. rewrite Ns, Ek, T1, T3, T4, T5, (es_rss _ E), (es_rss _ X). reflexivity.
  Qed.
  Lemma loop_tw w x : es w -> loop w x -> tw w x.
  Proof.
    intros E Lp. constructor; [apply (lp_ej _ _ Lp) | apply (lp_rank _ _ Lp) | apply (lp_total _ _ Lp) | |].
    - intros r p G. exists p. split; [now apply (lp_keeps _ _ Lp) | apply terms_refl].
    - intros id r p _ G. exists p. split; [now apply (lp_keeps _ _ Lp)|]. split; [apply terms_refl | auto].
  Qed.
  Lemma move_tw w (s : Qc) x del : es w -> find_delegation_move w ag s = Ok (x, del) -> es x /\ tw w x /\ (s_alloc del <> [] -> restored x) /\ NoDup (keys (s_alloc del)) /\ bigs (A := QcA) (s_alloc del).
  Proof.
    intros E H. unfold find_delegation_move in H. destruct (ltb (a := QcA) s min_stake_unit) eqn:Ls; [injection H as <- <-; split; [exact E|]; split; [apply tw_refl|]; split; [now intros []|]; split; [constructor | intros ? ? []]|].
    apply bind_ok in H as ([y d] & H & Hd). injection Hd as -> <-. destruct (allocations_tw w s x d E H) as (X & Tx & Rx). split; [exact X|]. split; [exact Tx|]. cbn [s_alloc].
    apply allocations_inv in H as [(_ & -> & _)|(y & pools & _ & _ & _ & ->)]; [| |exact E].
    - split; [now intros []|]. split; [constructor | intros ? ? []].
    - split; [intros _; now apply Rx|]. split; [apply alloc_nodup | now apply (greedy_allocations_bigs QcA_ord)].
  Qed.
  Lemma move_mono w x (s s' : Qc) y del z del' : es w -> es x -> tw w x -> s' <= s -> find_delegation_move w ag s = Ok (y, del) -> find_delegation_move x ag s' = Ok (z, del') ->
    forall id v', get (s_alloc del') id = Some v' -> exists v, get (s_alloc del) id = Some v /\ v' <= v.
  Proof.
    intros Ew Ex Tx Ls H H' id v' J. unfold find_delegation_move in H, H'. destruct (ltb (a := QcA) s' min_stake_unit) eqn:L'; [injection H' as <- <-; discriminate|]. assert (Ls' : ltb (a := QcA) s min_stake_unit = false).
    { apply ltb_MIN_false in L'. apply ltb_MIN_false. eapply Qcle_trans; eassumption. }
    rewrite Ls' in H. apply bind_ok in H as ([y1 d] & H & Hd). injection Hd as -> <-. apply bind_ok in H' as ([z1 d'] & H' & Hd'). injection Hd' as -> <-. exact (allocations_mono w x s s' y d z d' Ew Ex Tx Ls H H' id v' J).
  Qed.
  Theorem chosen_profit w w1 del (du : Qc) w2 (ou : Qc) op n : es w -> worth w -> find_delegation_move w ag (a_stake ag) = Ok (w1, del) -> public w1 del -> s_owned del = [] -> expected_utility w1 ag del = Ok du ->
    es w2 -> (1 <= n)%Z -> split_move w1 n w2 op -> NoDup (keys (s_owned op)) -> expected_utility w2 ag op = Ok ou -> du < ou -> forall id r, get (s_owned op) id = Some r -> exists p, get (w_heap w2) r = Some p /\ 0 < p_pp p.
  Proof.
    intros E W Hd Pb O1 Hdu E2 Hn (w3 & pledge & cost & Lp & Hp & _ & Hf & Hm) Nd Hx Lt id0 r0 J0. destruct (move_tw _ _ _ _ E Hd) as (E1 & T1 & R1 & N1 & B1). assert (T3 := loop_tw w1 w3 E1 Lp). assert (E3 := loop_es w1 w3 E1 Lp).
    assert (Pp : 0 < pledge). { destruct (pledge_ok rs R n (a_stake ag)) as (z & Hz & Pz); [lia | assumption|]. change (pledge_per_pool (A := QcA) (a_stake ag) (r_thr rs) n = Ok z) in Hz. rewrite Hp in Hz. now injection Hz as ->. }
    assert (Q : 0 <= pledge * Qc_ofZ n) by (apply Qcmult_nonneg; [now apply Qclt_le_weak | apply Qclt_le_weak, Qc_ofZ_pos; lia]).
    assert (F : tw w3 w2 /\ NoDup (keys (s_alloc op)) /\ bigs (A := QcA) (s_alloc op) /\ (s_alloc op <> [] -> restored w2) /\ forall id v', get (s_alloc op) id = Some v' -> exists v, get (s_alloc del) id = Some v /\ v' <= v).
    { unfold find_delegation_for_operator in Hf. destruct (ltb (a := QcA) zero (sub (a_stake ag) (pledge * Qc_ofZ n))) eqn:El.
      - apply bind_ok in Hf as ([w4 del'] & Hf & Hf'). injection Hf' as -> Hf'. rewrite <- Hf'. destruct (move_tw _ _ _ _ E3 Hf) as (_ & T4 & R4 & N4 & B4). repeat (split; [assumption|]).
        apply (move_mono w w3 (a_stake ag) (sub (a := QcA) (a_stake ag) (pledge * Qc_ofZ n)) w1 del w2 del' E E3 (tw_trans _ _ _ T1 T3)); [cbn [sub QcA]; qlra | exact Hd | exact Hf].
      - injection Hf as <- <-. split; [apply tw_refl|]. split; [constructor|]. split; [intros ? ? []|]. split; [now intros [] | discriminate]. }
    destruct F as (T2 & N2 & B2 & R2 & Dom). assert (T12 := tw_trans _ _ _ T3 T2). clear Hf Hd.
    assert (Pc : forall id r, get (s_owned op) id = Some r -> exists p, get (w_heap w2) r = Some p /\ sound_pool rs p /\ p_pledge p = pledge /\ p_cost p = cost).
    { intros id r J. destruct (Hm id r J) as (p & G & Ep & Ec & _). destruct (tw_hk _ _ T2 r p G) as (q & Gq & (_ & _ & Q3 & Q4 & _)). exists q. split; [exact Gq|]. split; [apply (es_heap _ E2 _ _ Gq)|]. split; congruence. }
    destruct (Pc id0 r0 J0) as (p0 & G0 & S0 & L0 & C0). exists p0. split; [exact G0|]. destruct (Qclt_le_dec 0 (p_pp p0)) as [Lp0|Lp0]; [exact Lp0|]. exfalso.
    assert (Bad : forall r, In r (values (s_owned op)) -> exists p, get (w_heap w2) r = Some p /\ sound_pool (w_rss w2) p /\ p_pp p <= 0).
    { intros r J. apply In_values in J as (id & J); [|exact Nd]. destruct (Pc id r J) as (p & G & S & Ep & Ec). exists p. split; [exact G|]. split; [rewrite (es_rss _ E2); exact S|].
      assert (P1 := pf_pp _ _ _ _ (proj1 S)). assert (P2 := pf_pp _ _ _ _ (proj1 S0)). rewrite Ep, Ec in P1. rewrite L0, C0, P1 in P2. injection P2 as ->. exact Lp0. }
    assert (Vo : ou <= total (dvals ag w2 (s_alloc op))).
    { unfold expected_utility in Hx. apply bind_ok in Hx as (u0 & H0 & Hx). apply del_sum in Hx. assert (U0 : u0 <= 0). { destruct (s_owned op) as [|e0 l0] eqn:Eo; [injection H0 as <-; apply Qcle_refl|]. rewrite <- Eo in *. apply bind_ok in H0 as (y & Hy & H0). injection H0 as <-. assert (Ly : y <= 0) by (apply (op_loss ag Pr w2 op y); [now rewrite (es_rss _ E2) | assumption | assumption]). cbn [add zero QcA]. qlra. } rewrite Hx. qlra. }
    assert (Vd : du = total (dvals ag w1 (s_alloc del))).
    { unfold expected_utility in Hdu. rewrite O1 in Hdu. cbn [bind] in Hdu. apply del_sum in Hdu. rewrite Hdu. cbn [zero QcA]. ring. }
    assert (W1 := tw_worth _ _ E E1 T1 W).
    assert (Gd : forall k v, In (k, v) (s_alloc del) -> good_at w1 k) by (intros k v J r p G Gp; destruct (Pb k v J) as (r' & p' & G' & Gp' & Pv); rewrite G in G'; injection G' as <-; rewrite Gp in Gp'; injection Gp' as <-; exact (W1 k r p G Gp Pv)).
    assert (Vp : s_alloc del <> [] -> forall k v, get (dvals ag w1 (s_alloc del)) k = Some v -> 0 <= v).
    { intros Ne k v J. rewrite dvals_get in J. change (T QcA) with Qc in *. destruct (get (V := Qc) (s_alloc del) k) as [a|] eqn:Ek; [|discriminate]. injection J as <-. apply value_nonneg; [exact E1 | apply (Gd k a); now apply get_In | now apply R1|]. apply Qclt_le_weak, big_pos, (B1 k). now apply get_In. }
    assert (Le : total (dvals ag w2 (s_alloc op)) <= total (dvals ag w1 (s_alloc del))); [|qlra].
    assert (Ne : s_alloc op <> [] -> s_alloc del <> []). { intros N. destruct (s_alloc op) as [|[k v] l] eqn:Eo; [congruence|]. destruct (Dom k v) as (u & Eu & _); [cbn; now rewrite Nat.eqb_refl|]. intros Z. rewrite Z in Eu. discriminate. }
    apply total_dom; rewrite ?dvals_keys; [exact N1 | exact N2 | |].
    - intros k v J. apply (Vp) with (k := k); [|exact J]. intros Z. rewrite Z in J. discriminate.
    - intros k v J. rewrite dvals_get in J. change (T QcA) with Qc in *. destruct (get (V := Qc) (s_alloc op) k) as [a|] eqn:Ek; [|discriminate]. injection J as <-. rewrite dvals_get.
      assert (No' : s_alloc op <> []) by (intros Z; rewrite Z in Ek; discriminate). destruct (Dom k a Ek) as (v & Ev & Lv). exists (dval ag w1 k v). split; [exact (f_equal (option_map (dval ag w1 k)) Ev)|].
      rewrite (value_same w1 w2 k a E1 E2 T12 (R1 (Ne No')) (R2 No')). apply value_mono; [exact E1 | apply (Gd k v); now apply get_In | exact (R1 (Ne No')) | | exact Lv]. apply Qclt_le_weak, big_pos, (B2 k). now apply get_In.
  Qed.
  End Profitable.
  (** ** pools that are opened are worth having or private: myopic agents *)
  Lemma allocations_hk w (s : Qc) x d : es w -> stake_allocations w ag s = Ok (x, d) -> hk w x.
  Proof.
    intros E H. unfold stake_allocations in H. apply bind_ok in H as (rk & _ & H). apply bind_ok in H as (el & _ & H). destruct el as [|e0 el]; [injection H as <- _; apply hk_refl|].
    unfold the_strategy in H. rewrite Hst in H. cbn [of_option bind] in H. rewrite touches_zeros_keys in H. apply bind_ok in H as (y & H1 & H). apply bind_ok in H as (pools & _ & H). apply bind_ok in H as (x' & H3 & H). injection H as <- _.
    destruct (touches_tw _ zeros_incl (zeros_in ks) w y E H1) as [Ey Ty]. destruct (touches_tw (s_alloc st) (incl_refl _) (fun i v J => or_intror (Ba i v J)) y x' Ey H3) as [_ Tx]. exact (hk_trans _ _ _ (tw_hk _ _ Ty) (tw_hk _ _ Tx)).
  Qed.
  Lemma move_hk w (s : Qc) x del : es w -> find_delegation_move w ag s = Ok (x, del) -> hk w x.
  Proof.
    intros E H. unfold find_delegation_move in H. destruct (ltb _ _); [injection H as <- _; apply hk_refl|]. apply bind_ok in H as ([y d] & H & Hd). injection Hd as -> _. exact (allocations_hk w s x d E H).
  Qed.
  Lemma del_value_nonneg w r (a u : Qc) : es w -> del_utility_pool w ag r a = Ok u -> 0 <= u.
  Proof.
    intros E H. unfold del_utility_pool in H. destruct (a_profile ag); [| |discriminate]; apply bind_ok in H as (s0 & _ & H); apply bind_ok in H as (p & _ & H); apply bind_ok in H as (z & _ & H); unfold delegator_utility in H; inv_all; subst u; unfold delegator_reward; rewrite pmax_max; apply Qcmax_r.
  Qed.
  Lemma deleg_nonneg w del (du : Qc) : es w -> s_owned del = [] -> expected_utility w ag del = Ok du -> 0 <= du.
  Proof.
    intros E O H. unfold expected_utility in H. rewrite O in H. cbn [bind] in H. apply del_sum in H. rewrite H. cbn [zero QcA].
    assert (Z : 0 <= total (dvals ag w (s_alloc del))); [|qlra]. apply total_nonneg. intros k v J. unfold dvals in J. apply in_map_iff in J as ([i a] & [= <- <-] & _). cbn. unfold dval. destruct (get (w_pools w) i) as [r|]; [|apply Qcle_refl].
    destruct (del_utility_pool w ag r a) as [u|] eqn:Eu; [exact (del_value_nonneg w r a u E Eu) | apply Qcle_refl].
  Qed.
  Lemma threshold_thr : pool_threshold (A := QcA) rs (r_thr rs) <= r_thr rs.
  Proof. unfold pool_threshold. destruct (r_scheme rs); try apply Qcle_refl. rewrite pmin_min. apply Qcmin_r. Qed.
  Theorem chosen_myopic w del (du : Qc) w2 (ou : Qc) op n : a_profile ag = Myopic -> es w -> s_owned del = [] -> expected_utility w ag del = Ok du ->
    es w2 -> (1 <= n <= r_k rs)%Z -> split_move w n w2 op -> pays_off w n -> NoDup (keys (s_owned op)) -> expected_utility w2 ag op = Ok ou -> du < ou ->
    forall id r, get (s_owned op) id = Some r -> exists p, get (w_heap w2) r = Some p /\ (0 < p_pp p \/ p_private p = true) /\ (0 < p_pp p <-> able (a_stake ag) (a_cost ag) (w_phi w)).
  Proof.
    intros My E O1 Hdu E2 Hn (w3 & pledge & cost & Lp & Hp & Hc & Hf & Hm) Po Nd Hx Lt id0 r0 J0. assert (E3 := loop_es w w3 E Lp). assert (Du := deleg_nonneg w del du E O1 Hdu).
    assert (K : hk w3 w2). { unfold find_delegation_for_operator in Hf. destruct (ltb _ _); [|injection Hf as <- _; apply hk_refl]. apply bind_ok in Hf as ([w4 del'] & Hf & Hf'). injection Hf' as -> _. exact (move_hk _ _ _ _ E3 Hf). }
    assert (Pc : forall id r, get (s_owned op) id = Some r -> exists p, get (w_heap w2) r = Some p /\ sound_pool rs p /\ p_pp p = pot_profit rs pledge cost /\ p_private p = leb (a := QcA) (pool_threshold (A := QcA) rs pledge) pledge).
    { intros id r J. destruct (Hm id r J) as (p & G & Ep & Ec & Ev). destruct (K r p G) as (q & Gq & (_ & _ & Q3 & Q4 & _ & Q6)). exists q. split; [exact Gq|]. assert (S := proj1 (es_heap _ E2 _ _ Gq)). split; [exact S|]. split; [|congruence].
      assert (P1 := pf_pp _ _ _ _ (proj1 S)). rewrite Q3, Q4, Ep, Ec, potential_profit_ok in P1 by exact R. now injection P1 as <-. }
    destruct (Pc id0 r0 J0) as (p0 & G0 & S0 & P0 & V0). exists p0. split; [exact G0|]. rewrite P0, V0. split.
    - destruct (Qclt_le_dec 0 (pot_profit rs pledge cost)) as [Lp0|Lp0]; [now left | right].
      assert (Thr : pledge = r_thr rs).
      { unfold pledge_per_pool in Hp. destruct (Z.leb_spec n 0); [lia|]. apply bind_ok in Hp as (q & Hq & Hp). apply Ok_inj in Hp. rewrite pdiv_ok in Hq by (apply Qc_pos_neq, Qc_ofZ_pos; lia). apply Ok_inj in Hq. rewrite pmin_min in Hp.
        unfold find_delegation_for_operator in Hf. destruct (ltb (a := QcA) zero (sub (a_stake ag) (pledge * Qc_ofZ n))) eqn:El.
        - cbn [ltb zero sub QcA] in El. destruct (Qc_ltb_spec 0 (a_stake ag - pledge * Qc_ofZ n)) as [Lf|]; [|discriminate]. assert (Pn : 0 < Qc_ofZ n) by (apply Qc_ofZ_pos; lia).
          unfold Qcmin in Hp. revert Hp. qcase; intros; [|congruence]. exfalso. assert (Es : a_stake ag = pledge * Qc_ofZ n); [|qlra]. rewrite <- Hp, <- Hq. symmetry. apply Qcdiv_mul. now apply Qc_pos_neq.
        - exfalso. injection Hf as _ Ea. unfold expected_utility in Hx. apply bind_ok in Hx as (u0 & H0 & Hx). rewrite <- Ea in Hx. cbn [foldM] in Hx. apply Ok_inj in Hx. subst u0.
          assert (U0 : ou <= 0); [|qlra]. destruct (s_owned op) as [|e0 l0] eqn:Eo; [discriminate|]. rewrite <- Eo in *. apply bind_ok in H0 as (y & Hy & H0). apply Ok_inj in H0. subst ou. cbn [add zero QcA].
          assert (Ly : y <= 0); [|qlra]. apply (op_loss ag Pr w2 op y); [now rewrite (es_rss _ E2) | | exact Hy]. intros r J. apply In_values in J as (id & J); [|exact Nd]. destruct (Pc id r J) as (p & G & S & P & _). exists p. split; [exact G|]. split; [rewrite (es_rss _ E2); exact S | now rewrite P]. }
      rewrite Thr. cbn [leb QcA]. assert (T := threshold_thr). destruct (Qc_leb_spec (pool_threshold (A := QcA) rs (r_thr rs)) (r_thr rs)); [reflexivity | contradiction].
    - split; [intros P; exists n, pledge, cost; auto | intros A; exact (Po My A pledge cost Hp Hc)].
  Qed.
  (** the pools a myopic agent proposes pay if any number of pools does *)
  Lemma choice_pays w w2 (u : Qc) op : es w -> worth w -> hp w -> opt_ok anyK anyC w uid (a_stake ag) (a_strategy ag) -> a_profile ag = Myopic -> choose_pool_strategy so w ag = Ok (w2, u, Some op) -> able (a_stake ag) (a_cost ag) (w_phi w) ->
    forall id r, get (s_owned op) id = Some r -> exists p, get (w_heap w2) r = Some p /\ sound_pool rs p /\ 0 < p_pp p.
  Proof.
    intros E W Hh Ho My Hc Ab id r J. assert (K := choose_kp w E W Hh Ho). rewrite Hc in K. cbn [kp fst snd] in K. destruct K as [E2 K]. destruct (K op eq_refl) as (_ & _ & n & _ & (w3 & pledge & cost & Lp & Hp & Hco & Hf & Hm) & Po & _).
    assert (E3 := loop_es w w3 E Lp). assert (K3 : hk w3 w2). { unfold find_delegation_for_operator in Hf. destruct (ltb _ _); [|injection Hf as <- _; apply hk_refl]. apply bind_ok in Hf as ([w4 del'] & Hf & Hf'). injection Hf' as -> _. exact (move_hk _ _ _ _ E3 Hf). }
    destruct (Hm id r J) as (p & G & Ep & Ec & _). destruct (K3 r p G) as (q & Gq & (_ & _ & Q3 & Q4 & _)). exists q. split; [exact Gq|]. assert (S := proj1 (es_heap _ E2 _ _ Gq)). split; [exact S|].
    assert (P1 := pf_pp _ _ _ _ (proj1 S)). rewrite Q3, Q4, Ep, Ec, potential_profit_ok in P1 by exact R. injection P1 as <-. exact (Po My Ab pledge cost Hp Hco).
  Qed.
  Lemma public_back w x new : es w -> w_pools x = w_pools w -> hk w x -> public x new -> public w new.
  Proof.
    intros E Ep K P id v J. destruct (P id v J) as (r & p & G & Gp & Pv). rewrite Ep in G. destruct (reg_ok w id r E G) as (p0 & G0 & _). destruct (K r p0 G0) as (q & Gq & (_ & _ & _ & _ & _ & Q6)). rewrite Gp in Gq. injection Gq as <-. exists r, p0. split; [exact G|]. split; [exact G0 | congruence].
  Qed.
  (** what an agent prepares *)
  Definition prepared w x : Prop := forall ag' new, get (w_agents x) uid = Some ag' -> a_new ag' = Some new -> public w new /\
    forall id r, get (s_owned new) id = Some r -> exists p, get (w_heap x) r = Some p /\ (0 < p_pp p \/ p_private p = true) /\ (a_profile ag = NonMyopic -> 0 < p_pp p) /\ (a_profile ag = Myopic -> (0 < p_pp p <-> able (a_stake ag) (a_cost ag) (w_phi w))).
  Lemma update_kp w : full w -> es w -> worth w -> seen w st -> get (w_agents w) uid = Some ag -> kp (update_strategy so w uid) (fun x => es x /\ prepared w x).
  Proof.
    intros [[Hh Ha] Hr] E Hp Se G. destruct (Ha _ _ G) as (_ & _ & Ho & _). assert (Rf : refs_ok w (values (s_owned st))) by (rewrite Hst in Ho; exact (refs_of _ _ _ Ho)).
    unfold update_strategy, the_agent. rewrite G. cbn [of_option bind].
    assert (Z : kp (let! st0 := the_strategy ag in let! cu := current_utility w ag in let! eu := expected_utility w ag st0 in let aug := augmented_utility w cu eu in let! wd := find_delegation_move w ag (a_stake ag) in
        let '(w1, del_st) := wd in let! du := expected_utility w1 ag del_st in let! wo := choose_pool_strategy so w1 ag in let '(w2, ou, op_st) := wo in
        Ok (put_agent w2 uid (agent_set_new (pick_move aug (du, del_st) (ou, op_st)) ag))) (fun x => es x /\ prepared w x)).
    { unfold the_strategy. rewrite Hst. cbn [of_option bind]. eapply kp_bind; [exact (current_kp w E Rf)|]. intros cu _ _. eapply kp_bind; [exact (expected_kp w st E Se Rf (pays_own w E))|]. intros eu _ _. cbv zeta.
      eapply kp_bind; [exact (delegation_kp w _ E)|]. intros [w1 del] Hd (E1 & _ & O1 & P1 & B1). cbn [fst snd] in *. destruct (find_delegation_ev w w ag _ w1 del (ev_refl _ Hh) Hd) as (V1 & _).
      assert (Hp1 := worth_of w w1 E Hp (ev_pools _ _ V1) (ev_hk _ _ V1) (es_heap _ E1)).
      eapply kp_bind; [apply (expected_kp w1 del E1 (seen_public w1 del Hp1 B1)); [rewrite O1; intros r [] | exact P1]|]. intros du Hdu _.
      eapply kp_bind; [exact (choose_kp w1 E1 Hp1 (ev_hp _ _ V1) (opt_hk anyK anyC _ _ _ _ _ (ev_hk _ _ V1) Ho))|]. intros [[w2 ou] op] _ [E2 Hop]. cbn [kp fst snd] in *. split.
      - destruct E2 as [[T1 T2] T3 T4]. constructor; [split; [exact T1 | exact T2] | exact T3 | exact T4].
      - intros ag' new Ga Hnew. unfold put_agent in Ga. cbn [w_agents with_agents] in Ga. rewrite get_set_eq in Ga. injection Ga as <-. cbn [agent_set_new a_new] in Hnew. change (w_heap (put_agent w2 uid (agent_set_new (pick_move (augmented_utility w cu eu) (du, del) (ou, op)) ag))) with (w_heap w2).
        assert (C : new = del \/ op = Some new /\ du < ou).
        { unfold pick_move in Hnew. cbn [fst snd] in Hnew. set (aug := augmented_utility w cu eu) in *. clearbody aug. cbn [ltb QcA] in Hnew. destruct op as [op'|].
          - destruct (Qc_ltb_spec aug du) as [L1|L1]; cbn [fst snd] in Hnew.
            + destruct (Qc_ltb_spec du ou) as [L2|L2]; injection Hnew as <-; auto.
            + destruct (Qc_ltb_spec aug ou) as [L2|L2]; [injection Hnew as <-; right; split; [reflexivity | qlra] | discriminate].
          - destruct (Qc_ltb_spec aug du); cbn [snd] in Hnew; [injection Hnew as <-; auto | discriminate]. }
        destruct C as [->|[-> Lt]]; [split; [exact (public_back w w1 del E (ev_pools _ _ V1) (ev_hk _ _ V1) B1) | intros id r J; rewrite O1 in J; discriminate]|].
        destruct (Hop new eq_refl) as (Nd & Hx & n & Hn & Sm & Po & B2 & Ep2 & K2). split; [exact (public_back w w1 new E (ev_pools _ _ V1) (ev_hk _ _ V1) (public_back w1 w2 new E1 Ep2 K2 B2))|].
        assert (Ph : w_phi w1 = w_phi w) by (assert (C := fdm_calm _ _ _ _ _ Hd); destruct C as [C _]; unfold params in C; now injection C). intros id r J. assert (D : a_profile ag = NonMyopic \/ a_profile ag = Myopic) by (generalize Pr; destruct (a_profile ag); [now left | now right | now intros []]). destruct D as [Ep|Ep].
        + destruct (chosen_profit Ep w w1 del du w2 ou new n E Hp Hd B1 O1 Hdu E2 ltac:(lia) Sm Nd Hx Lt id r J) as (p & Gp & Pp). exists p. split; [exact Gp|]. split; [now left|]. split; [auto | congruence].
        + destruct (chosen_myopic w1 del du w2 ou new n Ep E1 O1 Hdu E2 Hn Sm Po Nd Hx Lt id r J) as (p & Gp & Pp & Pa). exists p. split; [exact Gp|]. split; [exact Pp|]. split; [congruence|]. intros _. rewrite <- Ph. exact Pa. }
    destruct (a_profile ag); [exact Z | exact Z | contradiction].
  Qed.
  End Agent.

  (** ** carrying out a move *)
  Notation ex := (AnyBooks.ex anyK anyST anyC).
  Notation good := (AnyRank.good m).
  Notation K1 := (fun p : pool QcA => Ok (pool_key p)).
  (** those who may delegate have a strategy *)
  Definition lst w : Prop := forall a ag, L a -> get (w_agents w) a = Some ag -> exists st, a_strategy ag = Some st.
  Lemma lst_ex w0 w : ex w0 w -> lst w0 -> lst w.
  Proof.
    intros E H a ag La G. assert (Eo := ex_owns _ _ _ _ _ E a). rewrite G in Eo. destruct (get (w_agents w0) a) as [bg|] eqn:Gb; [|discriminate]. cbn in Eo. unfold owns in Eo. injection Eo as Eo _ _.
    destruct (H a bg La Gb) as (st & Es). rewrite Es in Eo. cbn in Eo. destruct (a_strategy ag) as [st'|]; [eauto | discriminate].
  Qed.
  Lemma rank_remove_tot w refs r p : rank_ok K1 (w_heap w) m refs (w_rank w) -> In r refs -> get (w_heap w) r = Some p -> exists w', rank_remove w r = Ok w'.
  Proof.
    intros R1 J G. destruct (rank_ok_remove_total QcA_ord _ _ _ _ _ _ _ _ R1 J G eq_refl) as (l & Hl). unfold rank_remove, deref. rewrite G. cbn [of_option bind]. rewrite Hl. cbn. eauto.
  Qed.
  Lemma rankm_remove_tot w refs r p : w_rss w = rs -> rank_ok (pool_key_myopic rs) (w_heap w) m refs (w_rankm w) -> In r refs -> get (w_heap w) r = Some p -> exists w', rankm_remove w r = Ok w'.
  Proof.
    intros Er R1 J G. destruct (kt_ok rs R p) as (k & Hk). destruct (rank_ok_remove_total QcA_ord _ _ _ _ _ _ _ _ R1 J G Hk) as (l & Hl). unfold rankm_remove, deref. rewrite G, Er. cbn [of_option bind]. rewrite Hk. cbn [bind]. rewrite Hl. cbn. eauto.
  Qed.
  Lemma rank_add_tot w r p : get (w_heap w) r = Some p -> exists w', rank_add w r = Ok w'.
  Proof. intros G. unfold rank_add, deref. rewrite G. cbn. eauto. Qed.
  Lemma rankm_add_tot w r p : w_rss w = rs -> get (w_heap w) r = Some p -> exists w', rankm_add w r = Ok w'.
  Proof. intros Er G. unfold rankm_add, deref. rewrite G, Er. cbn [of_option bind]. destruct (kt_ok rs R p) as (k & ->). cbn. eauto. Qed.

  Lemma remove_delegations_kp w0 w r p : lst w0 -> ex w0 w -> heap_ok w -> get (w_heap w) r = Some p -> kp (remove_delegations w r) heap_ok.
  Proof.
    intros Ls E H G. unfold remove_delegations, deref. rewrite G. cbn [of_option bind]. apply (kp_bind _ _ heap_ok); [|intros w1 _ H1; destruct (w_simul w1); exact H1].
    eapply kp_weak; [apply (kp_foldM _ (fun y => (ex w0 y /\ ex w y) /\ heap_ok y)); [exact (conj (conj E (ex_refl _ _ _ _ (ex_book _ _ _ _ _ E))) H)|]|now intros y _ [_ Hy]].
    intros y a Ja [[E1 E2] Hy]. assert (La : L a) by (apply (proj2 (H r p G)); exact Ja).
    assert (Z : kp (remove_one_delegation r (p_id p) y a) heap_ok).
    { unfold remove_one_delegation, the_agent. apply (kp_bind _ _ (fun ag => get (w_agents y) a = Some ag)); [apply kp_key; auto|]. intros ag _ Ga. destruct (lst_ex w0 y E1 Ls a ag La Ga) as (st & Es).
      unfold the_strategy. rewrite Es. cbn [of_option bind]. apply (kp_bind _ _ (fun _ => True)); [apply kp_key; auto|]. intros _ _ _. destruct (ex_hk _ _ _ _ _ E2 r p G) as (q & Gq & _).
      unfold deref. cbn [put_agent with_agents w_heap]. rewrite Gq. cbn [of_option bind kp]. intros r' q' G'. cbn [store with_heap w_heap put_agent with_agents] in G'. rewrite get_set in G'. destruct (Nat.eqb_spec r r'); [|exact (Hy _ _ G')]. injection G' as <-. apply ok_upd; [exact (Hy _ _ Gq) | now left | exact La]. }
    eapply kp_weak; [exact Z|]. intros z Hz H2. split; [|exact H2]. split; [exact (proj1 (remove_one_ex anyK anyST anyC ltac:(now intros) w0 _ _ _ _ _ E1 Hz)) | exact (proj1 (remove_one_ex anyK anyST anyC ltac:(now intros) w _ _ _ _ _ E2 Hz))].
  Qed.
  Lemma heap_frame w w' : frame w w' -> heap_ok w -> heap_ok w'.
  Proof. intros (F & _) H r p G. rewrite F in G. exact (H r p G). Qed.
  Lemma close_kp w0 w id : lst w0 -> ex w0 w -> es w -> kp (close_pool w id) es.
  Proof.
    intros Ls E Es. assert (Z : kp (close_pool w id) (fun w' => heap_ok w' /\ w_rss w' = rs)).
    { destruct (es_tidy _ Es) as [[N H0] [R1 R2]]. unfold close_pool, the_pool. apply (kp_bind _ _ (fun r => get (w_pools w) id = Some r)); [apply kp_key; auto|]. intros r _ G. destruct (H0 id r G) as (p & Gp & _). assert (Jr := values_In _ _ _ G).
      destruct (rank_remove_tot w _ r p R1 Jr Gp) as (w1 & H1). rewrite H1. cbn [bind]. assert (F1 := rank_remove_frame _ _ _ H1). destruct (AnyRank.rank_remove_rk m _ _ _ _ R1 H1) as (_ & _ & _ & Em). destruct F1 as (F1h & F1').
      destruct (rankm_remove_tot w1 (values (w_pools w)) r p) as (w2 & H2); [destruct F1' as (_ & _ & -> & _); apply Es | rewrite F1h, Em, <- (es_rss _ Es); exact R2 | exact Jr | now rewrite F1h|]. rewrite H2. cbn [bind].
      assert (F2 := rankm_remove_frame _ _ _ H2). assert (E2 : ex w0 w2) by (eapply ex_frame; [eapply ex_frame; [exact E | exact (conj F1h F1')] | exact F2]).
      assert (Hh2 : heap_ok w2) by (eapply heap_frame; [exact F2|]; eapply heap_frame; [exact (conj F1h F1') | apply Es]).
      apply (kp_bind _ _ heap_ok); [apply (remove_delegations_kp w0 w2 r p Ls E2 Hh2); destruct F2 as (-> & _); now rewrite F1h|]. intros w3 H3 Hh3. cbn [kp]. split; [exact Hh3|].
      destruct (remove_delegations_ex anyK anyST anyC ltac:(now intros) w0 w2 r w3 E2 H3) as [E3 _]. cbn [with_pools w_rss]. rewrite (ex_rss _ _ _ _ _ E3), <- (ex_rss _ _ _ _ _ E). apply Es. }
    eapply kp_weak; [exact Z|]. intros w' H [H1 H2]. constructor; [exact (AnyRank.close_tidy m w0 w id w' E (es_tidy _ Es) H) | exact H2 | exact H1].
  Qed.
  Lemma update_pool_kp w0 uid w id ag new st r old : lst w0 -> ex w0 w -> es w -> get (w_agents w) uid = Some ag -> a_new ag = Some new -> a_strategy ag = Some st -> get (s_owned new) id = Some r -> get (s_owned st) id = Some old ->
    get (w_pools w) id = Some old -> ~ In r (values (w_pools w)) -> kp (update_pool uid w id) es.
  Proof.
    intros Ls E Es Ga Gn Gs Gr Go Gp Nr. assert (Z : kp (update_pool uid w id) (fun w' => heap_ok w' /\ w_rss w' = rs)).
    { destruct (es_tidy _ Es) as [[N H0] [R1 R2]]. assert (Bk := ex_book _ _ _ _ _ E). destruct (proj2 Bk _ _ Ga) as (_ & _ & _ & I4). destruct (I4 new Gn) as (_ & _ & ps & Fo & _). destruct (mine_get _ _ _ _ _ _ Fo Gr) as (p & Pp & _).
      unfold update_pool, the_agent. rewrite Ga. cbn [of_option bind]. rewrite Gn. cbn [of_option bind]. rewrite Gr. cbn [of_option bind]. unfold deref. rewrite Pp. cbn [of_option bind].
      assert (E0 := ex_refl anyK anyST anyC w Bk).
      apply (kp_bind _ _ (fun w1 => heap_ok w1 /\ ex w w1 /\ ex w0 w1 /\ w_pools w1 = w_pools w /\ AnyRank.rks m (values (w_pools w)) w1)).
      - destruct (p_private p && _)%bool; [|cbn; split; [apply Es | split; [exact E0 | split; [exact E | split; [reflexivity | exact (conj R1 R2)]]]]].
        eapply kp_weak; [exact (remove_delegations_kp w0 w r p Ls E (es_heap _ Es) Pp)|]. intros w1 H1 Hh. split; [exact Hh|]. destruct (remove_delegations_ex anyK anyST anyC ltac:(now intros) w w r w1 E0 H1) as [X1 X2].
        destruct (remove_delegations_ex anyK anyST anyC ltac:(now intros) w0 w r w1 E H1) as [X3 _]. split; [exact X1|]. split; [exact X3|]. split; [exact X2|]. exact (AnyRank.remove_delegations_rks m _ _ _ _ Nr (conj R1 R2) H1).
      - intros w1 _ (Hh & E1 & _ & P1 & Q1 & Q2). assert (Er : w_rss w1 = rs) by (rewrite (ex_rss _ _ _ _ _ E1); apply Es). rewrite Er in Q2.
        apply (kp_bind _ _ (fun ag2 => get (w_agents w1) uid = Some ag2)); [apply kp_key; auto|]. intros ag2 _ G2. assert (Eo := ex_owns _ _ _ _ _ E1 uid). rewrite G2, Ga in Eo. cbn in Eo. unfold owns in Eo. rewrite Gs in Eo. destruct (a_strategy ag2) as [st2|] eqn:S2; [|discriminate]. cbn in Eo. injection Eo as Eo _ _.
        unfold the_strategy. rewrite S2. cbn [of_option bind]. rewrite Eo, Go. cbn [of_option bind]. assert (Jo := values_In _ _ _ Gp).
        destruct (H0 id old Gp) as (po & Gpo & _). destruct (ex_hk _ _ _ _ _ E1 _ _ Gpo) as (qo & Gqo & _). destruct (ex_hk _ _ _ _ _ E1 _ _ Pp) as (q & Gq & _).
        set (w2 := with_pools (set (w_pools w1) id r) w1).
        destruct (rank_remove_tot w2 _ old qo Q1 Jo Gqo) as (w3 & H3). rewrite H3. cbn [bind]. destruct (rank_remove_frame _ _ _ H3) as (F3h & _ & _ & F3r & _). destruct (AnyRank.rank_remove_rk m (values (w_pools w)) w2 old w3 Q1 H3) as (_ & _ & _ & Em3).
        destruct (rank_add_tot w3 r q) as (w4 & H4); [rewrite F3h; exact Gq|]. rewrite H4. cbn [bind]. destruct (rank_add_frame _ _ _ H4) as (F4h & _ & _ & F4r & _).
        assert (Em4 : w_rankm w4 = w_rankm w3) by (unfold rank_add in H4; apply bind_ok in H4 as (? & _ & H4); injection H4 as <-; reflexivity).
        destruct (rankm_remove_tot w4 (values (w_pools w)) old qo) as (w5 & H5); [rewrite F4r, F3r; exact Er | rewrite F4h, F3h, Em4, Em3; exact Q2 | exact Jo | rewrite F4h, F3h; exact Gqo|]. rewrite H5. cbn [bind]. destruct (rankm_remove_frame _ _ _ H5) as (F5h & _ & _ & F5r & _).
        destruct (rankm_add_tot w5 r q) as (w6 & H6); [rewrite F5r, F4r, F3r; exact Er | rewrite F5h, F4h, F3h; exact Gq|]. rewrite H6. cbn [bind kp]. destruct (rankm_add_frame _ _ _ H6) as (F6h & _ & _ & F6r & _).
        cbn [with_pools w_rss]. split; [|rewrite F6r, F5r, F4r, F3r; exact Er]. intros r' q' G'. cbn [with_pools w_heap] in G'. rewrite F6h, F5h, F4h, F3h in G'. exact (Hh _ _ G'). }
    eapply kp_weak; [exact Z|]. intros w' H [H1 H2]. constructor; [exact (proj1 (AnyRank.update_pool_tidy QcA_ord m w0 uid w id w' ag new st r old E (es_tidy _ Es) Ga Gn Gs Gr Go Gp Nr H)) | exact H2 | exact H1].
  Qed.
  Lemma open_kp w0 uid w id ag st r : ex w0 w -> es w -> get (w_agents w) uid = Some ag -> a_strategy ag = Some st -> get (s_owned st) id = Some r -> get (w_pools w) id = None -> ~ In r (values (w_pools w)) -> kp (open_pool uid w id) es.
  Proof.
    intros E Es Ga Gs Gr Gp Nr. assert (Z : kp (open_pool uid w id) (fun w' => heap_ok w' /\ w_rss w' = rs)).
    { assert (Bk := ex_book _ _ _ _ _ E). destruct (proj2 Bk _ _ Ga) as (_ & _ & I3 & _). destruct (I3 st Gs) as (_ & _ & ps & Fo & _). destruct (mine_get _ _ _ _ _ _ Fo Gr) as (p & Pp & _).
      unfold open_pool, the_agent, the_strategy. rewrite Ga. cbn [of_option bind]. rewrite Gs. cbn [of_option bind]. rewrite Gr. cbn [of_option bind].
      destruct (rank_add_tot (with_pools (set (w_pools w) id r) w) r p Pp) as (w2 & H2). rewrite H2. cbn [bind]. assert (F2 := rank_add_frame _ _ _ H2). destruct F2 as (F2h & _ & _ & F2r & _).
      destruct (rankm_add_tot w2 r p) as (w3 & H3); [rewrite F2r; apply Es | rewrite F2h; exact Pp|]. rewrite H3. cbn [kp]. destruct (rankm_add_frame _ _ _ H3) as (F3h & _ & _ & F3r & _).
      split; [|rewrite F3r, F2r; apply Es]. intros r' q G. rewrite F3h, F2h in G. exact (es_heap _ Es _ _ G). }
    eapply kp_weak; [exact Z|]. intros w' H [H1 H2]. constructor; [exact (proj1 (AnyRank.open_tidy QcA_ord m w0 uid w id w' ag st r E (es_tidy _ Es) Ga Gs Gr Gp Nr H)) | exact H2 | exact H1].
  Qed.

  Lemma execute_kp w uid ag old new : good w -> es w -> lst w -> L uid -> get (w_agents w) uid = Some ag -> a_strategy ag = Some old -> a_new ag = Some new -> bigs (A := QcA) (s_alloc new) ->
    kp (execute_strategy so w uid) es.
  Proof.
    intros (F & Sep & _) Es Ls Lu Hag Hold Hnew Bn. assert (Hb := proj1 F). destruct (proj2 F) as [N Hr].
    assert (E0 := ex_refl anyK anyST anyC w Hb). set (oo := keys (s_owned old)). set (no := keys (s_owned new)).
    assert (Sno : forall id r, get (s_owned new) id = Some r -> exists p, get (w_heap w) r = Some p /\ p_id p = id /\ p_owner p = uid).
    { intros id r G. destruct (proj2 Hb _ _ Hag) as (_ & _ & _ & I4). destruct (I4 new Hnew) as (_ & _ & ps & Fo & _). exact (mine_get _ _ _ _ _ _ Fo G). }
    assert (Nno : NoDup no). { destruct (proj2 Hb _ _ Hag) as (_ & _ & _ & I4). exact (proj1 (I4 new Hnew)). }
    assert (Noo : NoDup oo). { destruct (proj2 Hb _ _ Hag) as (_ & _ & I3 & _). exact (proj1 (I3 old Hold)). }
    assert (L1 : forall i, In i (so (oo ++ no) (diff oo no)) <-> In i oo /\ ~ In i no) by (intros i; rewrite <- diff_In; split; apply Permutation_in; [|symmetry]; apply so_perm).
    assert (L2 : forall i, In i (so (no ++ oo) (inter no oo)) <-> In i no /\ In i oo) by (intros i; rewrite <- inter_In; split; apply Permutation_in; [|symmetry]; apply so_perm).
    assert (L3 : forall i, In i (so (no ++ oo) (diff no oo)) <-> In i no /\ ~ In i oo) by (intros i; rewrite <- diff_In; split; apply Permutation_in; [|symmetry]; apply so_perm).
    assert (Nd2 : NoDup (so (no ++ oo) (inter no oo))) by (apply (AnyRank.so_nodup so so_perm), NoDup_filter, Nno).
    assert (Nd3 : NoDup (so (no ++ oo) (diff no oo))) by (apply (AnyRank.so_nodup so so_perm), NoDup_filter, Nno).
    assert (Pold : forall i, In i oo -> get (w_pools w) i = get (s_owned old) i).
    { intros i J. apply get_Some_key in J as (r & J). rewrite J. apply Hr. exists uid, ag, old. auto. }
    assert (Away : forall i r, get (s_owned new) i = Some r -> ~ In r (values (w_pools w))) by (intros i r G; exact (Sep uid ag new i r Hag Hnew G)).
    unfold execute_strategy, the_agent, the_strategy. rewrite Hag. cbn [of_option bind]. rewrite Hold. cbn [of_option bind]. rewrite Hnew. cbn [of_option bind].
    (* delegations *)
    apply (kp_bind _ _ (fun y => (ex w y /\ es y) /\ w_pools y = w_pools w)).
    { apply kp_foldM; [exact (conj (conj E0 Es) eq_refl)|]. intros y id _ [[X1 X2] X3]. eapply kp_weak; [apply touch_kp; [exact X2 | now left | exact Lu]|]. intros z Hz (Z1 & Z2 & _). split; [split; [exact (proj1 (touch_ex anyK anyST anyC w _ _ _ _ _ X1 Hz)) | exact Z1] | congruence]. }
    intros w1 _ Q1. apply (kp_bind _ _ (fun y => (ex w y /\ es y) /\ w_pools y = w_pools w)).
    { apply (kp_foldM (B := world QcA) (Y := nat * T QcA)); [exact Q1|]. intros y [id v] J [[X1 X2] X3]. eapply kp_weak; [apply touch_kp; [exact X2 | right; exact (Bn id v J) | exact Lu]|]. intros z Hz (Z1 & Z2 & _). split; [split; [exact (proj1 (touch_ex anyK anyST anyC w _ _ _ _ _ X1 Hz)) | exact Z1] | congruence]. }
    intros w2 _ [[E2 T2] P2]. fold oo no.
    (* closing pools *)
    apply (kp_bind _ _ (fun y => ex w y /\ es y /\ incl (values (w_pools y)) (values (w_pools w)) /\ forall i, ~ In i (so (oo ++ no) (diff oo no)) -> get (w_pools y) i = get (w_pools w) i)).
    { apply kp_foldM; [split; [exact E2 | split; [exact T2 | rewrite P2; split; [apply incl_refl | auto]]]|]. intros y id J (X1 & X2 & X3 & X4). eapply kp_weak; [exact (close_kp w y id Ls X1 X2)|]. intros z Hz Z2.
      destruct (close_ex anyK anyST anyC ltac:(now intros) w y id z X1 Hz) as [Y1 Y2]. split; [exact Y1|]. split; [exact Z2|]. rewrite Y2. split.
      - intros r Jr. apply X3. unfold values in *. apply in_map_iff in Jr as ([i v] & <- & Jr). apply in_map_iff. exists (i, v). split; [reflexivity|]. clear -Jr. induction (w_pools y) as [|[j v0] d IH]; cbn in *; [exact Jr|]. destruct (Nat.eqb id j); cbn in *; tauto.
      - intros i Ni. rewrite get_pop by apply (es_tidy _ X2). destruct (Nat.eqb_spec id i) as [<-|]; [contradiction | now apply X4]. }
    intros w3 _ (E3 & T3 & V3 & P3).
    (* updating pools *)
    assert (Upd : forall l y, NoDup l -> (forall i, In i l -> In i no /\ In i oo /\ get (w_pools y) i = get (s_owned old) i) -> (forall i r, In i l -> get (s_owned new) i = Some r -> ~ In r (values (w_pools y))) ->
              ex w y -> es y -> kp (foldM (update_pool uid) l y) (fun y' => (ex w y' /\ es y') /\ (forall r, In r (values (w_pools y')) -> In r (values (w_pools y)) \/ exists i, In i l /\ get (s_owned new) i = Some r) /\
              (forall i, ~ In i l -> get (w_pools y') i = get (w_pools y) i))).
    { induction l as [|id l IH]; intros y Nl Hl Al Ye Yt; cbn [foldM]; [cbn; auto|]. apply NoDup_cons_iff in Nl as [Nl1 Nl2].
      assert (Eo := ex_owns _ _ _ _ _ Ye uid). rewrite Hag in Eo. destruct (get (w_agents y) uid) as [bg|] eqn:Gb; [|discriminate]. unfold owns in Eo. cbn in Eo. rewrite Hold, Hnew in Eo. destruct (a_strategy bg) as [bst|] eqn:Bs; [|discriminate]. destruct (a_new bg) as [bn|] eqn:Bn'; [|discriminate]. cbn in Eo. injection Eo as Eo1 Eo2 _.
      destruct (Hl id (or_introl eq_refl)) as (J1 & J2 & J3). apply get_Some_key in J1 as (r & J1). apply get_Some_key in J2 as (ro & J2). rewrite J2 in J3.
      assert (Gr' : get (s_owned bn) id = Some r) by now rewrite Eo2. assert (Go' : get (s_owned bst) id = Some ro) by now rewrite Eo1. assert (Nr' := Al id r (or_introl eq_refl) J1).
      eapply kp_bind; [exact (update_pool_kp w uid y id bg bn bst r ro Ls Ye Yt Gb Bn' Bs Gr' Go' J3 Nr')|]. intros z Hz Ez.
      destruct (AnyRank.update_pool_tidy QcA_ord m w uid y id z bg bn bst r ro Ye (es_tidy _ Yt) Gb Bn' Bs Gr' Go' J3 Nr' Hz) as [_ Py].
      destruct (update_pool_ex anyK anyST anyC ltac:(now intros) w uid y id z Ye Hz) as (Ey & bg' & bn' & r' & B1 & B2 & B3 & B4 & _). rewrite Gb in B1. injection B1 as <-. rewrite Bn' in B2. injection B2 as <-. rewrite Eo2, J1 in B3. injection B3 as <-.
      assert (Vy : forall z', In z' (values (w_pools z)) -> z' = r \/ In z' (values (w_pools y))). { intros z' J. assert (J' : In z' (ro :: values (w_pools z))) by now right. apply (Permutation_in _ Py) in J' as [<-|J']; auto. }
      eapply kp_weak; [apply (IH z Nl2); [| | exact Ey | exact Ez]|].
      - intros i J. destruct (Hl i (or_intror J)) as (K1' & K2' & K3'). split; [exact K1'|]. split; [exact K2'|]. rewrite B4, get_set. destruct (Nat.eqb_spec id i) as [<-|]; [contradiction | exact K3'].
      - intros i ri J Gi Jv. apply Vy in Jv as [->|Jv]; [|exact (Al i ri (or_intror J) Gi Jv)]. destruct (Sno i r Gi) as (p1 & A1 & A2 & _). destruct (Sno id r J1) as (p2 & A3 & A4 & _). apply Nl1. replace id with i by congruence. exact J.
      - intros z' _ ([I1 I2] & I3 & I4). split; [now split|]. split.
        + intros v J. destruct (I3 v J) as [J'|(i & K1' & K2')]; [apply Vy in J' as [->|J']; [right; exists id; split; [now left | exact J1] | now left] | right; exists i; split; [now right | exact K2']].
        + intros i J. rewrite I4 by (intros J'; apply J; now right). rewrite B4, get_set. destruct (Nat.eqb_spec id i) as [->|]; [exfalso; apply J; now left | reflexivity]. }
    eapply kp_bind; [apply (Upd _ w3 Nd2); [| | exact E3 | exact T3]|].
    { intros i J. apply L2 in J as [J1 J2]. split; [exact J1|]. split; [exact J2|]. rewrite P3; [now apply Pold|]. intros J. apply L1 in J. tauto. }
    { intros i r _ G J. apply (Away i r G). now apply V3. }
    intros w4 _ ([E4 T4] & V4 & P4).
    (* the new strategy *)
    apply (kp_bind _ _ (fun ag4 => get (w_agents w4) uid = Some ag4)); [apply kp_key; auto|]. intros ag4 _ Hag4.
    assert (Eo := ex_owns _ _ _ _ _ E4 uid). rewrite Hag4, Hag in Eo. unfold owns in Eo. cbn in Eo. rewrite Hold, Hnew in Eo. cbn in Eo. destruct (a_new ag4) as [new4|] eqn:En4; [|discriminate]. cbn in Eo. injection Eo as _ Eo _.
    set (w5 := put_agent w4 uid (agent_set_new None (agent_set_strategy (Some new4) ag4))).
    assert (B5 : book anyK anyST anyC w5). { destruct (proj2 (ex_book _ _ _ _ _ E4) _ _ Hag4) as (I1 & I2 & I3 & I4). apply book_put; cbn [agent_set_new agent_set_strategy a_id a_stake a_strategy a_new]; [exact (ex_book _ _ _ _ _ E4) | exact I1 | exact I2 | now rewrite <- En4 | discriminate]. }
    assert (T5 : es w5) by (destruct T4 as [[T4a T4b] T4c T4d]; constructor; [split; [exact T4a | exact T4b] | exact T4c | exact T4d]).
    (* opening pools *)
    assert (Opn : forall l y, NoDup l -> (forall i, In i l -> In i no /\ get (w_pools y) i = None) -> (forall i r, In i l -> get (s_owned new) i = Some r -> ~ In r (values (w_pools y))) ->
              ex w5 y -> w_agents y = w_agents w5 -> es y -> kp (foldM (open_pool uid) l y) es).
    { induction l as [|id l IH]; intros y Nl Hl Al Ye Ya Yt; cbn [foldM]; [exact Yt|]. apply NoDup_cons_iff in Nl as [Nl1 Nl2].
      assert (Gb : get (w_agents y) uid = Some (agent_set_new None (agent_set_strategy (Some new4) ag4))) by (rewrite Ya; unfold w5; cbn; apply get_set_eq).
      destruct (Hl id (or_introl eq_refl)) as (J1 & J3). apply get_Some_key in J1 as (r & J1). assert (Gr' : get (s_owned new4) id = Some r) by now rewrite Eo. assert (Nr' := Al id r (or_introl eq_refl) J1).
      eapply kp_bind; [exact (open_kp w5 uid y id _ new4 r Ye Yt Gb eq_refl Gr' J3 Nr')|]. intros z Hz Ez.
      destruct (AnyRank.open_tidy QcA_ord m w5 uid y id z _ new4 r Ye (es_tidy _ Yt) Gb eq_refl Gr' J3 Nr' Hz) as [_ Py].
      destruct (open_ex anyK anyST anyC w5 uid y id z Ye Hz) as (Ey & Ay & bg & bst & r' & B1 & B2 & B3 & B4). rewrite Gb in B1. injection B1 as <-. cbn in B2. injection B2 as <-. rewrite Eo, J1 in B3. injection B3 as <-.
      apply (IH z Nl2); [| | exact Ey | congruence | exact Ez].
      - intros i J. destruct (Hl i (or_intror J)) as (K1' & K3'). split; [exact K1'|]. rewrite B4, get_set. destruct (Nat.eqb_spec id i) as [<-|]; [contradiction | exact K3'].
      - intros i ri J Gi Jv. apply (Permutation_in _ Py) in Jv as [<-|Jv]; [|exact (Al i ri (or_intror J) Gi Jv)]. destruct (Sno i r Gi) as (p1 & A1 & A2 & _). destruct (Sno id r J1) as (p2 & A3 & A4 & _). apply Nl1. replace id with i by congruence. exact J. }
    apply (Opn _ w5 Nd3); [| | now apply ex_refl | reflexivity | exact T5].
    { intros i J. apply L3 in J as [J1 J2]. split; [exact J1|]. change (w_pools w5) with (w_pools w4). rewrite P4 by (intros J; apply L2 in J; tauto). rewrite P3 by (intros J; apply L1 in J; tauto).
      destruct (get (w_pools w) i) as [r|] eqn:G; [|reflexivity]. exfalso. apply get_Some_key in J1 as (rn & J1). destruct (Sno i rn J1) as (p & Gp & Ip & Op).
      apply Hr in G as (b & bg & bst & G1 & G2 & G3). destruct (proj2 Hb _ _ G1) as (_ & _ & I3 & _). destruct (I3 bst G2) as (_ & _ & ps & Fo & _). destruct (mine_get _ _ _ _ _ _ Fo G3) as (q & Gq & Iq & Oq).
      assert (Eb : b = uid). { rewrite <- Oq, <- Op. apply (proj2 (proj1 Hb) r rn q p Gq Gp). congruence. } rewrite Eb, Hag in G1. injection G1 as <-. rewrite Hold in G2. injection G2 as <-. apply J2. apply get_Some_key. eauto. }
    { intros i r J G Jv. change (w_pools w5) with (w_pools w4) in Jv. apply V4 in Jv as [Jv|(j & K1' & K2')]; [apply V3 in Jv; exact (Away i r G Jv)|]. destruct (Sno i r G) as (p1 & A1 & A2 & _). destruct (Sno j r K2') as (p2 & A3 & A4 & _). assert (Eij : i = j) by congruence. rewrite <- Eij in K1'. apply L2 in K1'. apply L3 in J. tauto. }
  Qed.

  (** ** rounds *)
  (** roles and the pools of both strategies stay, delegations are only withdrawn *)
  Definition own (o : option (strategy QcA)) : option (dict nat) := option_map (@s_owned QcA) o.
  Lemma own_none o : own o = None <-> o = None.
  Proof. destruct o; cbn; split; congruence. Qed.
  Definition role ag : profile * Qc * Qc := (a_profile ag, a_stake ag, a_cost ag).
  Definition shr (o' o : option (strategy QcA)) : Prop := forall st' id, o' = Some st' -> In id (keys (s_alloc st')) -> exists st, o = Some st /\ In id (keys (s_alloc st)).
  Lemma shr_refl o : shr o o.
  Proof. intros st' id E J. eauto. Qed.
  Lemma shr_trans o o1 o2 : shr o1 o -> shr o2 o1 -> shr o2 o.
  Proof. intros H1 H2 st' id E J. destruct (H2 st' id E J) as (st1 & E1 & J1). exact (H1 st1 id E1 J1). Qed.
  Lemma shr_pop st k : shr (Some (mkStrategy (pop (s_alloc st) k) (s_owned st))) (Some st).
  Proof. intros st' id [= <-] J. cbn in J. exists st. split; [reflexivity|]. now apply keys_pop_incl in J. Qed.
  Definition ps w x : Prop := forall a ag', get (w_agents x) a = Some ag' -> exists ag, get (w_agents w) a = Some ag /\ role ag' = role ag /\ (own (a_strategy ag') = own (a_strategy ag) /\ own (a_new ag') = own (a_new ag)) /\ shr (a_strategy ag') (a_strategy ag) /\ shr (a_new ag') (a_new ag).
  Lemma ps_refl w : ps w w.
  Proof. intros a ag G. exists ag. repeat (split; auto using shr_refl). Qed.
  Lemma ps_trans w x y : ps w x -> ps x y -> ps w y.
  Proof. intros H1 H2 a ag G. destruct (H2 a ag G) as (bg & G1 & A1 & [A2 A3] & A4 & A5). destruct (H1 a bg G1) as (cg & G2 & B1 & [B2 B3] & B4 & B5). exists cg. split; [exact G2|]. split; [congruence|]. split; [split; congruence|]. split; eapply shr_trans; eassumption. Qed.
  Lemma calm_ps w x : calm w x -> ps w x.
  Proof. intros (_ & E & _) a ag G. rewrite E in G. exact (ps_refl w a ag G). Qed.
  Lemma put_ps w a ag ag' : get (w_agents w) a = Some ag -> role ag' = role ag -> own (a_strategy ag') = own (a_strategy ag) /\ own (a_new ag') = own (a_new ag) -> shr (a_strategy ag') (a_strategy ag) -> shr (a_new ag') (a_new ag) -> ps w (put_agent w a ag').
  Proof.
    intros G E1 E2 E3 E4 b bg Gb. unfold put_agent in Gb. cbn [w_agents with_agents] in Gb. rewrite get_set in Gb. destruct (Nat.eqb_spec a b) as [<-|]; [injection Gb as <-; exists ag; auto | exact (ps_refl w b bg Gb)].
  Qed.
  Lemma rod_ps r id w a x : remove_one_delegation r id w a = Ok x -> ps w x.
  Proof.
    unfold remove_one_delegation, the_agent. intros H. destruct (get (w_agents w) a) as [ag|] eqn:G; [|discriminate]. cbn [of_option bind] in H.
    apply bind_ok in H as (st & Hs & H). unfold the_strategy in Hs. apply of_option_ok in Hs. apply bind_ok in H as (v & _ & H). cbv zeta in H. apply bind_ok in H as (p & _ & H). injection H as <-.
    apply (put_ps w a ag); [assumption | reflexivity | cbn; now rewrite Hs | cbn [agent_set_strategy a_strategy]; rewrite Hs; apply shr_pop | apply shr_refl].
  Qed.
  Lemma rd_ps w r x : remove_delegations w r = Ok x -> ps w x.
  Proof.
    unfold remove_delegations. intros H. apply bind_ok in H as (p & _ & H). apply bind_ok in H as (w1 & H1 & H). injection H as <-.
    apply (rel_foldM ps ps_refl ps_trans (fun w => w)) in H1; [|intros; eapply rod_ps; eassumption]. destruct (w_simul w1); [|assumption].
    eapply ps_trans; [exact H1|]. intros a ag G. cbn [w_agents with_agents] in G. rewrite get_map_snd in G. destruct (get (w_agents w1) a) as [bg|]; [|discriminate]. cbn in G. injection G as <-. exists bg. split; [reflexivity|]. unfold drop_from_new. destruct (a_new bg) as [nw|] eqn:E; [|rewrite E; split; [reflexivity|]; split; [split; reflexivity|]; split; apply shr_refl].
    cbn [agent_set_new a_new a_strategy]. split; [reflexivity|]. split; [split; reflexivity|]. split; [apply shr_refl | apply shr_pop].
  Qed.
  Lemma close_ps w id x : close_pool w id = Ok x -> ps w x.
  Proof.
    unfold close_pool. intros H. apply bind_ok in H as (r & _ & H). apply bind_ok in H as (w1 & H1 & H). apply bind_ok in H as (w2 & H2 & H). apply bind_ok in H as (w3 & H3 & H). injection H as <-.
    apply rr_calm, calm_ps in H1. apply rmr_calm, calm_ps in H2. apply rd_ps in H3. eapply ps_trans; [exact H1|]. eapply ps_trans; [exact H2|]. exact H3.
  Qed.
  Lemma upool_ps uid w id x : update_pool uid w id = Ok x -> ps w x.
  Proof.
    unfold update_pool. intros H. apply bind_ok in H as (ag & _ & H). apply bind_ok in H as (new & _ & H). apply bind_ok in H as (r & _ & H). apply bind_ok in H as (p & _ & H).
    apply bind_ok in H as (w1 & H1 & H). apply bind_ok in H as (ag2 & _ & H). apply bind_ok in H as (st & _ & H). apply bind_ok in H as (old & _ & H).
    apply bind_ok in H as (w3 & H3 & H). apply bind_ok in H as (w4 & H4 & H). apply bind_ok in H as (w5 & H5 & H). apply bind_ok in H as (w6 & H6 & H). injection H as <-.
    assert (E1 : ps w w1) by (destruct (p_private p && _); [now apply rd_ps in H1 | injection H1 as <-; apply ps_refl]).
    apply rr_calm, calm_ps in H3. apply ra_calm, calm_ps in H4. apply rmr_calm, calm_ps in H5. apply rma_calm, calm_ps in H6.
    eapply ps_trans; [exact E1|]. eapply ps_trans; [exact H3|]. eapply ps_trans; [exact H4|]. eapply ps_trans; [exact H5|]. exact H6.
  Qed.
  Lemma open_ps uid w id x : open_pool uid w id = Ok x -> ps w x.
  Proof.
    unfold open_pool. intros H. apply bind_ok in H as (ag & _ & H). apply bind_ok in H as (st & _ & H). apply bind_ok in H as (r & _ & H). apply bind_ok in H as (w2 & H2 & H).
    apply ra_calm, calm_ps in H2. apply rma_calm, calm_ps in H. eapply ps_trans; [exact H2 | exact H].
  Qed.
  Definition pr w x : Prop := forall a ag', get (w_agents x) a = Some ag' -> exists ag, get (w_agents w) a = Some ag /\ role ag' = role ag /\
    ((own (a_strategy ag') = own (a_strategy ag) /\ own (a_new ag') = own (a_new ag)) /\ shr (a_strategy ag') (a_strategy ag) /\ shr (a_new ag') (a_new ag) \/
     own (a_strategy ag') = own (a_new ag) /\ a_new ag <> None /\ a_new ag' = None /\ shr (a_strategy ag') (a_new ag)).
  Lemma execute_pr w uid x : execute_strategy so w uid = Ok x -> pr w x.
  Proof.
    unfold execute_strategy. intros H. apply bind_ok in H as (ag & G & H). apply bind_ok in H as (old & _ & H). apply bind_ok in H as (new & Hn & H).
    apply bind_ok in H as (w1 & H1 & H). apply bind_ok in H as (w2 & H2 & H). apply bind_ok in H as (w3 & H3 & H). apply bind_ok in H as (w4 & H4 & H). apply bind_ok in H as (ag4 & G4 & H).
    apply (rel_foldM ps ps_refl ps_trans (fun w => w)) in H1; [|intros; eapply calm_ps, touch_calm; eassumption].
    apply (rel_foldM ps ps_refl ps_trans (fun w => w)) in H2; [|intros; eapply calm_ps, touch_calm; eassumption].
    apply (rel_foldM ps ps_refl ps_trans (fun w => w)) in H3; [|intros; eapply close_ps; eassumption].
    apply (rel_foldM ps ps_refl ps_trans (fun w => w)) in H4; [|intros; eapply upool_ps; eassumption].
    apply (rel_foldM ps ps_refl ps_trans (fun w => w)) in H; [|intros; eapply open_ps; eassumption].
    assert (P4 : ps w w4) by (eapply ps_trans; [exact H1|]; eapply ps_trans; [exact H2|]; eapply ps_trans; [exact H3 | exact H4]).
    unfold the_agent in G, G4. apply of_option_ok in G, G4. apply of_option_ok in Hn.
    intros a ag' Ga. destruct (H a ag' Ga) as (bg & Gb & B1 & [B2 B3] & B4 & B5). unfold put_agent in Gb. cbn [w_agents with_agents] in Gb. rewrite get_set in Gb. destruct (Nat.eqb_spec uid a) as [<-|Ne].
    - injection Gb as <-. cbn [agent_set_new agent_set_strategy a_strategy a_new] in B2, B3, B4, B5. destruct (P4 uid ag4 G4) as (cg & Gc & C1 & [C2 C3] & C4 & C5). rewrite G in Gc. injection Gc as <-. exists ag. split; [exact G|]. split; [exact (eq_trans B1 C1)|]. right. split; [congruence|]. split; [congruence|]. split; [now apply own_none | eapply shr_trans; eassumption].
    - destruct (P4 a bg Gb) as (cg & Gc & C1 & [C2 C3] & C4 & C5). exists cg. split; [exact Gc|]. split; [congruence|]. left. split; [split; congruence|]. split; eapply shr_trans; eassumption.
  Qed.

  (** those who have a strategy, decide or have prepared something are those who may delegate *)
  Definition ai w : Prop := forall a ag, get (w_agents w) a = Some ag -> (L a -> a_strategy ag <> None) /\ (a_profile ag <> Abstainer -> L a) /\ (a_new ag <> None -> L a).
  Lemma ai_pr w x : pr w x -> ai w -> ai x.
  Proof. 
    intros P H a ag G. destruct (P a ag G) as (bg & Gb & E1 & E2). destruct (H a bg Gb) as (A1 & A2 & A3). unfold role in E1. injection E1 as E1 _ _. rewrite E1. split; [|split; [exact A2|]].
    - intros La N. apply own_none in N. specialize (A1 La). destruct E2 as [[[E2 _] _]|[E2 [E3 _]]]; rewrite N in E2; symmetry in E2; apply own_none in E2; contradiction.
    - intros Nn. apply A3. intros N. apply own_none in N. destruct E2 as [[[_ E2] _]|[_ [_ [E2 _]]]]; [rewrite N in E2; now apply own_none in E2 | contradiction].
  Qed.
  Lemma ai_lst w : ai w -> lst w.
  Proof. intros H a ag La G. destruct (H a ag G) as (A1 & _). specialize (A1 La). destruct (a_strategy ag) as [st|]; [eauto | contradiction]. Qed.
  Lemma ai_update w uid x : ai w -> update_strategy so w uid = Ok x -> ai x.
  Proof.
    intros H E. assert (E' := E). apply update_frame in E as (_ & _ & _ & _ & E1 & E2). intros a ag' G. destruct (Nat.eq_dec a uid) as [->|Ne]; [|rewrite E1 in G by assumption; exact (H a ag' G)].
    unfold update_strategy, the_agent in E'. destruct (get (w_agents w) uid) as [ag|] eqn:Ga; [|discriminate]. destruct (E2 ag eq_refl) as (new & Gn). rewrite G in Gn. injection Gn as ->. destruct (H uid ag Ga) as (A1 & A2 & A3). cbn. split; [exact A1|]. split; [exact A2|].
    destruct (a_profile ag) eqn:Ep; [intros _; apply A2; discriminate | intros _; apply A2; discriminate |]. cbn [of_option bind] in E'. rewrite Ep in E'. injection E' as <-. rewrite Ga in G. injection G as G. intros Nn. apply A3. rewrite G. cbn. exact Nn.
  Qed.

  Definition plan (x : T QcA) (d : dict (T QcA)) (l : list (T QcA)) : Prop := NoDup (keys d) /\ bigs (A := QcA) d.
  Definition posst (x : T QcA) : Prop := 0 < x.
  Notation fullp := (full anyK posst plan).
  Lemma plan_greedy rs' el (s : T QcA) : ltb (a := QcA) s min_stake_unit = false -> forall z l, plan z (greedy_allocations (A := QcA) rs' el s) l.
  Proof.
    intros B z l. split; [apply alloc_nodup | now apply (greedy_allocations_bigs QcA_ord)].
  Qed.
  Lemma plan_pop z (d : dict (T QcA)) l k : plan z d l -> plan z (pop d k) l.
  Proof. intros [N B]. split; [now apply NoDup_pop | now apply bigs_pop]. Qed.
  Lemma plan_nil z : posst z -> plan z [] [].
  Proof. intros _. split; [constructor | intros id v []]. Qed.
  Lemma plan_del z rs' el : posst z -> ltb (a := QcA) z min_stake_unit = false -> plan z (greedy_allocations (A := QcA) rs' el z) [].
  Proof. intros _ B. now apply plan_greedy. Qed.
  Lemma plan_op z thr n (q : T QcA) rs' el d : posst z -> (1 <= n)%Z -> pledge_per_pool (A := QcA) z thr n = Ok q ->
    d = [] \/ (ltb (a := QcA) zero (sub z (mul q (ofZ n))) = true /\ ltb (a := QcA) (sub z (mul q (ofZ n))) min_stake_unit = false /\ d = greedy_allocations (A := QcA) rs' el (sub z (mul q (ofZ n)))) -> plan z d (repeat q (Z.to_nat n)).
  Proof. intros P _ _ [->|(_ & B & ->)]; [split; [constructor | intros id v []] | now apply plan_greedy]. Qed.
  Lemma full_update w uid x : fullp w -> update_strategy so w uid = Ok x -> fullp x.
  Proof. intros F H. exact (proj1 (update_full so so_perm anyK I posst plan plan_nil plan_del plan_op w uid x ltac:(now intros) F H)). Qed.
  Lemma full_execute w uid x : fullp w -> execute_strategy so w uid = Ok x -> fullp x.
  Proof. intros F H. exact (proj1 (execute_full so so_perm anyK posst plan plan_pop w uid x F H)). Qed.

  Record st_ok w : Prop := { so_good : AnyRank.good m w; so_es : es w; so_full : fullp w; so_ai : ai w }.
  Lemma update_both w uid ag : st_ok w -> worth w -> get (w_agents w) uid = Some ag -> (forall st, a_strategy ag = Some st -> seen ag w st) -> kp (update_strategy so w uid) (fun x => st_ok x /\ (x = w \/ a_profile ag <> Abstainer /\ prepared ag w x)).
  Proof.
    intros [G E F Ha] W Hag Se. destruct (proj2 (proj1 F) _ _ Hag) as (Eid & Ps & I3 & _). destruct (Ha uid ag Hag) as (A1 & A2 & _).
    assert (Q : kp (update_strategy so w uid) (fun x => es x /\ (x = w \/ a_profile ag <> Abstainer /\ prepared ag w x))).
    { assert (D : a_profile ag = Abstainer \/ a_profile ag <> Abstainer) by (destruct (a_profile ag); [right; discriminate.. | now left]). destruct D as [Ep|Np].
      - unfold update_strategy, the_agent. rewrite Hag. cbn [of_option bind]. rewrite Ep. split; [exact E | now left].
      - assert (Lu := A2 Np). assert (S1 := A1 Lu). destruct (a_strategy ag) as [st|] eqn:Hst; [|contradiction]. destruct (I3 st eq_refl) as (N1 & _ & ps & _ & N2 & B2).
        rewrite <- Eid in *. eapply kp_weak; [exact (update_kp ag st Hst N2 B2 Np Ps Lu w (proj1 G) E W (Se st eq_refl) Hag)|]. intros x _ [Ex Hx]. split; [exact Ex | now right]. }
    eapply kp_weak; [exact Q|]. intros x Hx [Ex Px]. split; [|exact Px]. constructor; [exact (update_good QcA_ord so so_perm m w uid x G Hx) | exact Ex | exact (full_update w uid x F Hx) | exact (ai_update w uid x Ha Hx)].
  Qed.
  Lemma advance_st w uid : st_ok w -> kp (advance so w uid) st_ok.
  Proof.
    intros [G E F Ha]. destruct (get (w_agents w) uid) as [ag|] eqn:Hag; [|unfold advance, the_agent; rewrite Hag; reflexivity]. unfold advance, the_agent. rewrite Hag. cbn [of_option bind]. destruct (a_new ag) as [new|] eqn:Hn; [|now constructor].
    destruct (Ha uid ag Hag) as (A1 & A2 & A3). assert (Lu : L uid) by (apply A3; congruence). assert (S1 := A1 Lu). destruct (a_strategy ag) as [old|] eqn:Hst; [|contradiction].
    destruct (proj2 (proj1 F) _ _ Hag) as (_ & _ & _ & I4). destruct (I4 new Hn) as (_ & _ & ps & _ & _ & B2).
    eapply kp_bind; [exact (execute_kp w uid ag old new G E (ai_lst w Ha) Lu Hag Hst Hn B2)|]. intros x Hx Ex. cbn [kp].
    assert (Gx := execute_good QcA_ord so so_perm m w uid x G Hx). assert (Fx := full_execute w uid x F Hx). assert (Ax := ai_pr _ _ (execute_pr w uid x Hx) Ha).
    constructor; [now apply (good_same m x) | destruct Ex; now constructor | now apply (full_same _ _ _ x) | exact Ax].
  Qed.
  (** ** pools opened or prepared are worth having or private *)
  (** the cost factor of further pools, and the agents whose pools are worth having *)
  Variables (ph : Qc) (Gd : nat -> Prop).
  Definition nice p : Prop := (0 < p_pp p \/ p_private p = true) /\ (0 < p_pp p <-> Gd (p_owner p)).
  Definition sought w : Prop := forall a ag new id r, get (w_agents w) a = Some ag -> a_new ag = Some new -> get (s_owned new) id = Some r -> exists p, get (w_heap w) r = Some p /\ nice p.
  (** [id] is the number of a pool of one of these agents *)
  Definition tied w id : Prop := exists r p, get (w_heap w) r = Some p /\ p_id p = id /\ Gd (p_owner p).
  Definition roles w : Prop := forall a ag, get (w_agents w) a = Some ag -> (a_profile ag = NonMyopic -> Gd a) /\ (a_profile ag = Myopic -> (Gd a <-> able (a_stake ag) (a_cost ag) ph)).
  Definition ties w : Prop := forall a ag st id, get (w_agents w) a = Some ag -> a_profile ag = NonMyopic -> a_strategy ag = Some st \/ a_new ag = Some st -> In id (keys (s_alloc st)) -> tied w id.
  Record fine w : Prop := { fn_st : st_ok w; fn_phi : w_phi w = ph; fn_roles : roles w; fn_reg : forall id r p, get (w_pools w) id = Some r -> get (w_heap w) r = Some p -> nice p; fn_new : sought w; fn_ties : ties w }.
  Lemma fine_worth w : fine w -> worth w.
  Proof. intros F id r p G Gp Pv. destruct (fn_reg _ F id r p G Gp) as [[P|P] _]; [exact P | congruence]. Qed.
  Lemma fine_seen w a ag st : fine w -> get (w_agents w) a = Some ag -> a_strategy ag = Some st -> seen ag w st.
  Proof.
    intros F Ga Hs Ep id v r p J G Gp. destruct (fn_ties _ F a ag st id Ga Ep (or_introl Hs)) as (r' & p' & Gp' & Ip & Hg); [apply (in_map fst) in J; exact J|].
    destruct (reg_ok w id r (so_es _ (fn_st _ F)) G) as (q & Gq & Iq & _). rewrite Gp in Gq. injection Gq as <-. apply (proj2 (fn_reg _ F id r p G Gp)). replace (p_owner p) with (p_owner p'); [exact Hg|].
    apply (proj2 (proj1 (proj1 (so_full _ (fn_st _ F)))) r' r p' p Gp' Gp). congruence.
  Qed.
  Lemma kept_nice w x r p : es w -> es x -> hk w x -> get (w_heap w) r = Some p -> nice p -> exists q, get (w_heap x) r = Some q /\ nice q.
  Proof.
    intros E X H G [P1 P2]. destruct (H r p G) as (q & Gq & T). exists q. split; [exact Gq|]. unfold nice. destruct (terms_pp p q (proj1 (es_heap _ E _ _ G)) (proj1 (es_heap _ X _ _ Gq)) T) as [-> _]. destruct T as (_ & -> & _ & _ & _ & ->). now split.
  Qed.
  Lemma kept_tied w x id : hk w x -> tied w id -> tied x id.
  Proof. intros K (r & p & G & Ip & Hg). destruct (K r p G) as (q & Gq & (T1 & T2 & _)). exists r, q. split; [exact Gq|]. split; [congruence | now rewrite T2]. Qed.
  Lemma update_fine w uid : fine w -> kp (update_strategy so w uid) fine.
  Proof.
    intros Fw. assert (Fw' := Fw). destruct Fw as [H Ph Ro Rg N Ti]. assert (W := fine_worth w Fw'). destruct (get (w_agents w) uid) as [ag|] eqn:Gu; [|unfold update_strategy, the_agent; rewrite Gu; reflexivity].
    eapply kp_weak; [exact (update_both w uid ag H W Gu (fun st Hs => fine_seen w uid ag st Fw' Gu Hs))|]. intros x Hx [Sx Px]. destruct Px as [->|[Na Px]]; [exact Fw'|].
    assert (Hk : hk w x) by exact (proj1 (proj1 (proj2 (update_full so so_perm anyK I posst plan plan_nil plan_del plan_op w uid x ltac:(now intros) (so_full _ H) Hx)))).
    assert (Fr := update_frame so w uid x Hx). destruct Fr as (Epa & _ & Ep & _ & E1 & E2). destruct (E2 ag Gu) as (nw & Gn). assert (Eid := proj1 (proj2 (proj1 (so_full _ H)) _ _ Gu)).
    assert (Phx : w_phi x = w_phi w) by (unfold params in Epa; now injection Epa). unfold prepared in Px. rewrite Eid in Px. assert (Px' : forall new, nw = Some new -> _) by (intros new En; exact (Px _ new Gn En)). clear Px. rename Px' into Px.
    constructor; [exact Sx | congruence | | | |].
    - intros a bg Gb. destruct (Nat.eq_dec a uid) as [->|Ne]; [|rewrite E1 in Gb by assumption; exact (Ro a bg Gb)]. rewrite Gn in Gb. injection Gb as <-. cbn. exact (Ro uid ag Gu).
    - intros id r p G Gp. rewrite Ep in G. destruct (reg_ok w id r (so_es _ H) G) as (p0 & G0 & _). destruct (kept_nice w x r p0 (so_es _ H) (so_es _ Sx) Hk G0 (Rg id r p0 G G0)) as (q & Gq & Nq). rewrite Gp in Gq. injection Gq as <-. exact Nq.
    - intros a bg new id r Gb Hn J. destruct (Nat.eq_dec a uid) as [->|Ne].
      + assert (Gb' := Gb). rewrite Gn in Gb. injection Gb as <-. cbn in Hn. subst nw. destruct (Px new eq_refl) as [_ Po]. destruct (Po id r J) as (p & Gp & P1 & P2 & P3). exists p. split; [exact Gp|]. split; [exact P1|].
        destruct (proj2 (proj1 (so_full _ Sx)) _ _ Gb') as (_ & _ & _ & I4). destruct (I4 new eq_refl) as (_ & _ & ps0 & Fo & _). destruct (mine_get _ _ _ _ _ _ Fo J) as (q & Gq & _ & Oq). rewrite Gp in Gq. injection Gq as <-. rewrite Oq.
        destruct (Ro uid ag Gu) as [R1 R2]. destruct (a_profile ag) eqn:Epr.
        * split; [intros _; now apply R1 | intros _; now apply P2].
        * rewrite (P3 eq_refl), Ph. symmetry. now apply R2.
        * contradiction.
      + rewrite E1 in Gb by assumption. destruct (N a bg new id r Gb Hn J) as (p & Gp & Pp). exact (kept_nice w x r p (so_es _ H) (so_es _ Sx) Hk Gp Pp).
    - intros a bg st id Gb Epr C J. apply (kept_tied w x id Hk). destruct (Nat.eq_dec a uid) as [->|Ne]; [|rewrite E1 in Gb by assumption; exact (Ti a bg st id Gb Epr C J)]. rewrite Gn in Gb. injection Gb as <-. cbn in Epr, C. destruct C as [C|C]; [exact (Ti uid ag st id Gu Epr (or_introl C) J)|]. subst nw.
      destruct (Px st eq_refl) as [Pb _]. apply in_map_iff in J as ([i v] & Ei & J). cbn in Ei. subst i. destruct (Pb id v J) as (r & p & G & Gp & Pv). destruct (reg_ok w id r (so_es _ H) G) as (q & Gq & Iq & _). rewrite Gp in Gq. injection Gq as <-.
      exists r, p. split; [exact Gp|]. split; [exact Iq|]. apply (proj2 (Rg id r p G Gp)). exact (W id r p G Gp Pv).
  Qed.
  Lemma advance_fine w uid : fine w -> kp (advance so w uid) fine.
  Proof.
    intros Fw. assert (Fw' := Fw). destruct Fw as [H Ph Ro Rg N Ti]. eapply kp_weak; [exact (advance_st w uid H)|]. intros x Hx Sx. assert (Epa := proj1 (advance_frame so w uid x Hx)). unfold advance in Hx. apply bind_ok in Hx as (ag & Gu & Hx). destruct (a_new ag) as [nw|]; [|injection Hx as <-; exact Fw'].
    apply bind_ok in Hx as (y & Hy & Hx). assert (Pr' := execute_pr w uid y Hy). destruct (execute_full so so_perm anyK posst plan plan_pop w uid y (so_full _ H) Hy) as (_ & Nx & _). apply Ok_inj in Hx.
    assert (Ea : w_agents x = w_agents y) by now subst x. assert (Hk : hk w x) by (subst x; exact (proj1 Nx)). assert (Fx := so_full _ Sx). clear Hy Hx Nx.
    assert (Phx : w_phi x = w_phi w) by (unfold params in Epa; now injection Epa). constructor; [exact Sx | congruence | | | |].
    - intros a bg Gb. rewrite Ea in Gb. destruct (Pr' a bg Gb) as (cg & Gc & Er & _). unfold role in Er. injection Er as -> -> ->. exact (Ro a cg Gc).
    - intros id r p G Gp. apply (proj2 (proj2 Fx)) in G as (a & bg & st & Gb & Hs & J). rewrite Ea in Gb. destruct (Pr' a bg Gb) as (cg & Gc & _ & C).
      assert (P0 : exists p0, get (w_heap w) r = Some p0 /\ nice p0).
      { destruct C as [[[C _] _]|[C _]]; rewrite Hs in C; cbn in C.
        - destruct (a_strategy cg) as [st0|] eqn:Ec; [|discriminate]. injection C as C. rewrite C in J. assert (G0 : get (w_pools w) id = Some r) by (apply (proj2 (proj2 (so_full _ H))); eauto 6). destruct (reg_ok w id r (so_es _ H) G0) as (p0 & G1 & _). exists p0. split; [exact G1 | exact (Rg id r p0 G0 G1)].
        - destruct (a_new cg) as [st0|] eqn:Ec; [|discriminate]. injection C as C. rewrite C in J. exact (N a cg st0 id r Gc Ec J). }
      destruct P0 as (p0 & G0 & P0). destruct (kept_nice w x r p0 (so_es _ H) (so_es _ Sx) Hk G0 P0) as (q & Gq & Pq). rewrite Gp in Gq. injection Gq as <-. exact Pq.
    - intros a bg new id r Gb Hn J. rewrite Ea in Gb. destruct (Pr' a bg Gb) as (cg & Gc & _ & C). destruct C as [[[_ C] _]|[_ [_ [C _]]]]; [|congruence]. rewrite Hn in C. cbn in C. destruct (a_new cg) as [st0|] eqn:Ec; [|discriminate]. injection C as C. rewrite C in J.
      destruct (N a cg st0 id r Gc Ec J) as (p & Gp & Pp). exact (kept_nice w x r p (so_es _ H) (so_es _ Sx) Hk Gp Pp).
    - intros a bg st id Gb Epr C J. apply (kept_tied w x id Hk). rewrite Ea in Gb. destruct (Pr' a bg Gb) as (cg & Gc & Er & D). unfold role in Er. injection Er as Er _ _. rewrite Er in Epr. destruct D as [(_ & S1 & S2)|(_ & _ & Z & S1)].
      + destruct C as [C|C]; [destruct (S1 st id C J) as (st0 & C0 & J0) | destruct (S2 st id C J) as (st0 & C0 & J0)]; exact (Ti a cg st0 id Gc Epr ltac:(auto) J0).
      + destruct C as [C|C]; [|congruence]. destruct (S1 st id C J) as (st0 & C0 & J0). exact (Ti a cg st0 id Gc Epr (or_intror C0) J0).
  Qed.
  Lemma event_fine w e : fine w -> kp (do_event so w e) fine.
  Proof.
    intros H. destruct e as [a|a]; cbn [do_event]; [|now apply advance_fine]. unfold agent_step. eapply kp_bind; [exact (update_fine w a H)|]. intros x Hx Sx. destruct (w_simul x); [exact Sx | now apply advance_fine].
  Qed.
  Lemma events_fine evs w : fine w -> kp (foldM (do_event so) evs w) fine.
  Proof. intros H. apply kp_foldM; [exact H|]. intros x e _ Sx. now apply event_fine. Qed.
End Errors.
