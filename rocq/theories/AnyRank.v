(** The rankings of the pools under every activation order. *)
From Coq Require Import ZArith List Bool Arith Lia Permutation.
From Verif Require Import Num Py Rewards SortedKeyList World Stakeholder Sched Sim Init Reach Spec ListFacts Greedy Inv SimInv AnyBooks PropBooks.
Import ListNotations.
Open Scope nat_scope.

Section AnyRank.
  Context {A : Arith} (O : OrdLaws A).
  Variable so : list nat -> list nat -> list nat.
  Hypothesis so_perm : set_order so.
  Variable m : nat.
  Notation num := (T A).
  Notation K1 := (fun p : pool A => Ok (pool_key p)).
  Notation full := (AnyBooks.full anyK anyST anyC).
  Notation ex := (AnyBooks.ex anyK anyST anyC).
  Implicit Types w : world A. Implicit Types p q : pool A. Implicit Types st new : strategy A. Implicit Types ag : agent A. Implicit Types s : sim A.

  (** both rankings hold the placeholders and [refs] *)
  Definition rks (refs : list nat) w : Prop := rank_ok K1 (w_heap w) m refs (w_rank w) /\ rank_ok (pool_key_myopic (w_rss w)) (w_heap w) m refs (w_rankm w).
  Definition own_id w : Prop := NoDup (keys (w_pools w)) /\ forall id r, get (w_pools w) id = Some r -> exists p, get (w_heap w) r = Some p /\ p_id p = id.
  Definition tidy w : Prop := own_id w /\ rks (values (w_pools w)) w.
  (** prepared pools are not registered *)
  Definition sep w : Prop := forall a ag new id r, get (w_agents w) a = Some ag -> a_new ag = Some new -> get (s_owned new) id = Some r -> ~ In r (values (w_pools w)).

  Lemma own_nodup w : own_id w -> NoDup (values (w_pools w)).
  Proof.
    intros [N H]. unfold values. apply NoDup_map_inj; [|eapply NoDup_map_inv; exact N].
    intros [id r] [id' r'] J J' E. cbn in E. subst r'. apply (In_get _ _ _ N) in J. apply (In_get _ _ _ N) in J'. destruct (H _ _ J) as (p & G & I1). destruct (H _ _ J') as (p' & G' & I2). congruence.
  Qed.
  Lemma full_own w : full w -> own_id w.
  Proof.
    intros [[_ Ha] [N Hr]]. split; [exact N|]. intros id r G. apply Hr in G as (a & ag & st & J1 & J2 & J3). destruct (Ha _ _ J1) as (_ & _ & I3 & _). destruct (I3 st J2) as (_ & _ & ps & Fo & _).
    destruct (mine_get _ _ _ _ _ _ Fo J3) as (p & G & Ip & _). eauto.
  Qed.
  Lemma full_low w : full w -> forall r, In r (values (w_pools w)) -> r < w_next w.
  Proof. intros F r J. assert (Ow := full_own w F). destruct F as [[[Hp _] _] [N _]]. apply (In_values _ _ N) in J as (id & J). destruct (proj2 Ow _ _ J) as (p & G & _). now apply Hp in G. Qed.

  Lemma rks_store refs w r p : ~ In r refs -> rks refs w -> rks refs (store w r p).
  Proof.
    intros Hn [R1 R2]. split; cbn [store with_heap w_heap w_rank w_rankm w_rss]; (eapply rank_ok_frame; [|eassumption]);
      (intros r' p' J G; exists p'; split; [rewrite get_set_ne; [exact G | intros ->; contradiction] | reflexivity]).
  Qed.
  Lemma rks_same refs w w' : w_heap w' = w_heap w -> w_rank w' = w_rank w -> w_rankm w' = w_rankm w -> w_rss w' = w_rss w -> rks refs w -> rks refs w'.
  Proof. intros E1 E2 E3 E4. unfold rks. now rewrite E1, E2, E3, E4. Qed.
  Lemma rks_perm refs refs' w : Permutation refs refs' -> rks refs w -> rks refs' w.
  Proof. intros P [R1 R2]. split; eapply rank_ok_perm; eassumption. Qed.

  (** ** elementary operations *)
  Lemma touch_tidy uid w id v w' : tidy w -> touch_delegation uid w id v = Ok w' -> tidy w' /\ w_pools w' = w_pools w /\ w_next w' = w_next w /\ w_rss w' = w_rss w.
  Proof.
    intros [[N H0] [R1 R2]] H. assert (Nv := own_nodup w (conj N H0)). apply touch_ok in H as (r & p & k & l & k' & G1 & G2 & Hk & Hl & Hk' & ->). split; [|repeat split].
    split; [split; [exact N|]|split]; cbn [w_pools w_heap w_next w_rss w_rank w_rankm with_rankm store with_heap].
    - intros id' r' G. rewrite get_set. destruct (Nat.eqb_spec r r') as [<-|]; [|now apply H0]. exists (update_delegation v uid p). split; [reflexivity|]. destruct (H0 _ _ G) as (p' & G' & E). cbn. congruence.
    - eapply rank_ok_frame; [|exact R1]. intros r' p' Hr G. rewrite get_set. destruct (Nat.eqb_spec r r'); [|eauto]. subst r'. exists (update_delegation v uid p). split; [reflexivity|]. rewrite upd_key. congruence.
    - destruct (rank_ok_remove _ _ _ _ _ _ _ _ R2 Hl) as (refs' & P & R). assert (ND : NoDup (r :: refs')) by (eapply Permutation_NoDup; eassumption).
      eapply rank_ok_perm; [symmetry; exact P|]. eapply rank_ok_add; [exact O | | apply get_set_eq | exact Hk'].
      eapply rank_ok_frame; [|exact R]. intros r' p' Hr G. rewrite get_set_ne; [eauto|]. intros <-. now apply NoDup_cons_iff in ND as [ND _].
  Qed.
  (** what evaluating moves does to a state [w0] *)
  Record ej w0 w : Prop := { ej_tidy : tidy w; ej_pools : w_pools w = w_pools w0; ej_rss : w_rss w = w_rss w0; ej_next : w_next w0 <= w_next w }.
  Lemma ej_touches {Y} w0 (f : world A -> Y -> res (world A)) l w w' : (forall x y x', f x y = Ok x' -> exists uid id v, touch_delegation uid x id v = Ok x') -> ej w0 w -> foldM f l w = Ok w' -> ej w0 w'.
  Proof.
    intros Hf E. apply foldM_inv; [exact E|]. intros x y x' _ [E1 E2 E3 E4] Hx. apply Hf in Hx as (uid & id & v & Hx). destruct (touch_tidy _ _ _ _ _ E1 Hx) as (T1 & T2 & T3 & T4). constructor; [exact T1 | congruence | congruence | lia].
  Qed.
  Lemma ej_alloc w0 w p : (forall r, In r (values (w_pools w0)) -> r < w_next w0) -> ej w0 w -> ej w0 (fst (alloc w p)).
  Proof.
    intros L [[[N H0] R] E2 E3 E4]. constructor; [|exact E2 | exact E3 | cbn; lia].
    assert (Hn : ~ In (w_next w) (values (w_pools w))) by (rewrite E2; intros J; apply L in J; lia). split.
    - split; [exact N|]. intros id r G. destruct (H0 _ _ G) as (q & G' & Eq). exists q. split; [|exact Eq]. cbn. rewrite get_set_ne; [exact G'|]. intros <-. apply Hn. eapply values_In; exact G.
    - eapply (rks_same _ (store w (w_next w) p)); [reflexivity.. | now apply rks_store].
  Qed.
  Lemma ej_store w0 w r p : (forall r, In r (values (w_pools w0)) -> r < w_next w0) -> w_next w0 <= r -> ej w0 w -> ej w0 (store w r p).
  Proof.
    intros L Lr [[[N H0] R] E2 E3 E4]. constructor; [|exact E2 | exact E3 | exact E4].
    assert (Hn : ~ In r (values (w_pools w))) by (rewrite E2; intros J; apply L in J; lia). split; [|now apply rks_store].
    split; [exact N|]. intros id r' G. destruct (H0 _ _ G) as (q & G' & Eq). exists q. split; [|exact Eq]. cbn. rewrite get_set_ne; [exact G'|]. intros <-. apply Hn. eapply values_In; exact G.
  Qed.
  Definition new_refs w0 (d : dict nat) : Prop := forall id r, In (id, r) d -> w_next w0 <= r.

  Lemma ej_delegation w0 w ag x w' st : ej w0 w -> find_delegation_move w ag x = Ok (w', st) -> ej w0 w' /\ s_owned st = [].
  Proof.
    intros E H. unfold find_delegation_move in H. destruct (ltb x min_stake_unit); [injection H as <- <-; now split|].
    apply bind_ok in H as ([w1 d] & H1 & H). injection H as <- <-. cbn [s_owned]. split; [|reflexivity]. unfold stake_allocations in H1. apply bind_ok in H1 as (rk & _ & H1). apply bind_ok in H1 as (el & _ & H1).
    destruct el as [|e el]; [now injection H1 as <- <-|].
    apply bind_ok in H1 as (st & Hst & H1). apply bind_ok in H1 as (w2 & H2 & H1). apply bind_ok in H1 as (pools & _ & H1). apply bind_ok in H1 as (w3 & H3 & H1). injection H1 as <- <-.
    eapply ej_touches; [|eapply ej_touches; [|exact E | exact H2]|exact H3]; intros y z y' J; cbn beta in J; eauto.
  Qed.
  Lemma ej_copies w0 : (forall r, In r (values (w_pools w0)) -> r < w_next w0) -> forall l w (d : dict nat) w' d', ej w0 w -> new_refs w0 d ->
    foldM (fun acc e => let '(w, d) := acc in let '(id, r) := e in let! wr := deepcopy w r in let '(w', r') := wr in Ok (w', set d id r')) l (w, d) = Ok (w', d') -> ej w0 w' /\ new_refs w0 d'.
  Proof.
    intros L. induction l as [|[id r] l IH]; intros w d w' d' E Nr H; cbn -[deepcopy] in H; [injection H as <- <-; now split|].
    apply bind_ok in H as ([w1 d1] & H1 & H). apply bind_ok in H1 as ([w2 r2] & H2 & H1). injection H1 as <- <-. unfold deepcopy in H2. apply bind_ok in H2 as (p & _ & H2).
    assert (Ew : w2 = fst (alloc w p) /\ r2 = w_next w) by (unfold alloc in *; injection H2 as <- <-; now split). destruct Ew as [-> ->].
    eapply IH; [| |exact H]; [now apply ej_alloc|]. intros i x J. apply In_set in J as [[-> ->]|J]; [apply E | now apply (Nr i)].
  Qed.
  Lemma ej_keep w0 w ag n w' d : (forall r, In r (values (w_pools w0)) -> r < w_next w0) -> ej w0 w -> pools_to_keep so w ag n = Ok (w', d) -> ej w0 w' /\ new_refs w0 d.
  Proof.
    intros L E H. unfold pools_to_keep in H. apply bind_ok in H as (st & _ & H). assert (N0 : new_refs w0 []) by (intros ? ? []).
    destruct (n <? Z.of_nat (length (s_owned st)))%Z; [apply bind_ok in H as (props & _ & H); apply bind_ok in H as (todo & _ & H)|]; eapply ej_copies; eassumption.
  Qed.
  Lemma ej_operator w0 w ag n d margins w' st : (forall r, In r (values (w_pools w0)) -> r < w_next w0) -> ej w0 w -> new_refs w0 d -> find_operator_move w ag n d margins = Ok (w', st) -> ej w0 w' /\ new_refs w0 (s_owned st).
  Proof.
    intros L E Nr H. unfold find_operator_move in H. apply bind_ok in H as (pledge & _ & H). apply bind_ok in H as (cost & _ & H).
    apply bind_ok in H as ([w1 i1] & H1 & H). apply bind_ok in H as ([w2 o2] & H2 & H). apply bind_ok in H as ([w3 d3] & H3 & H). injection H as <- <-. cbn [fst] in H2. cbn [s_owned].
    assert (E1 : ej w0 (fst (w1, i1))).
    { refine (foldM_inv _ (fun x => ej w0 (fst x)) d (w, 0) (w1, i1) E _ H1). intros [x i] [id r] y J Ex Hy. cbn [fst snd] in *. apply bind_ok in Hy as (p & _ & Hy). apply bind_ok in Hy as (p' & _ & Hy). injection Hy as <-. cbn [fst].
      apply ej_store; [exact L | exact (Nr _ _ J) | exact Ex]. }
    assert (E2 : ej w0 (fst (w2, o2)) /\ new_refs w0 (snd (w2, o2))).
    { refine (foldM_inv _ (fun x => ej w0 (fst x) /\ new_refs w0 (snd x)) _ (w1, d) (w2, o2) (conj E1 Nr) _ H2). intros [x dx] i y J [Ex Nx] Hy. cbn [fst snd] in *. unfold next_pool_id in Hy. cbv beta iota zeta in Hy.
      apply bind_ok in Hy as (p & _ & Hy). set (x2 := with_idseq (S (w_idseq x)) x) in *. change (alloc x2 p) with (fst (alloc x2 p), w_next x2) in Hy. injection Hy as <-. cbn [fst snd].
      assert (Ex2 : ej w0 x2) by (destruct Ex as [[X1 X2] X3 X4 X5]; constructor; [split; [exact X1 | exact X2] | exact X3 | exact X4 | exact X5]).
      split; [exact (ej_alloc w0 x2 p L Ex2)|]. intros id r Jr. apply In_set in Jr as [[-> ->]|Jr]; [apply Ex2 | now apply (Nx id)]. }
    destruct E2 as [E2 N2]. split; [|exact N2]. unfold find_delegation_for_operator in H3. destruct (ltb _ _); [|now injection H3 as <- <-].
    apply bind_ok in H3 as ([w4 s4] & H4 & H3). injection H3 as <- <-. exact (proj1 (ej_delegation w0 w2 ag _ w4 s4 E2 H4)).
  Qed.
  Lemma ej_choose w0 w ag w' u o : (forall r, In r (values (w_pools w0)) -> r < w_next w0) -> ej w0 w -> choose_pool_strategy so w ag = Ok (w', u, o) -> ej w0 w' /\ forall st, o = Some st -> new_refs w0 (s_owned st).
  Proof.
    intros L E H. unfold choose_pool_strategy in H. apply bind_ok in H as ([t margins] & _ & H). destruct (0 <? t)%Z; [|injection H as <- _ <-; split; [exact E | discriminate]].
    apply bind_ok in H as ([w1 d1] & H1 & H). apply bind_ok in H as ([w2 st] & H2 & H). apply bind_ok in H as (x & _ & H). injection H as <- _ <-.
    destruct (ej_keep w0 w ag t w1 d1 L E H1) as [E1 N1]. destruct (ej_operator w0 w1 ag t d1 margins w2 st L E1 N1 H2) as [E2 N2]. split; [exact E2 | intros st' [= <-]; exact N2].
  Qed.

  Definition good w : Prop := full w /\ sep w /\ rks (values (w_pools w)) w.
  Lemma update_good w uid w' : good w -> update_strategy so w uid = Ok w' -> good w'.
  Proof.
    intros (F & Sp & R) H. assert (F' : full w') by exact (proj1 (update_full so so_perm anyK I anyST anyC ltac:(now intros) ltac:(now intros) ltac:(now intros) w uid w' ltac:(now intros) F H)).
    assert (L := full_low w F). assert (E0 : ej w w) by (constructor; [split; [now apply full_own | exact R] | reflexivity | reflexivity | lia]).
    split; [exact F'|]. unfold update_strategy in H. apply bind_ok in H as (ag & Hag & H). apply the_agent_get in Hag.
    assert (Q : w' = w \/ exists cu eu w1 del du w2 ou op, find_delegation_move w ag (a_stake ag) = Ok (w1, del) /\ choose_pool_strategy so w1 ag = Ok (w2, ou, op) /\
                w' = put_agent w2 uid (agent_set_new (pick_move (augmented_utility w cu eu) (du, del) (ou, op)) ag)).
    { destruct (a_profile ag) eqn:Ep; [right|right|left; now injection H as <-];
        (apply bind_ok in H as (st & _ & H); apply bind_ok in H as (cu & _ & H); apply bind_ok in H as (eu & _ & H); apply bind_ok in H as ((w1, del) & H3 & H);
         apply bind_ok in H as (du & _ & H); apply bind_ok in H as (((w2, ou), op) & H4 & H); injection H as <-; exists cu, eu, w1, del, du, w2, ou, op; auto). }
    destruct Q as [->|(cu & eu & w1 & del & du & w2 & ou & op & H3 & H4 & ->)]; [now split|].
    destruct (ej_delegation w w ag _ w1 del E0 H3) as [E1 D1]. destruct (ej_choose w w1 ag w2 ou op L E1 H4) as [E2 N2].
    assert (Ea : w_agents w2 = w_agents w).
    { destruct F as [[Hp Ha] _]. destruct (find_delegation_ev w w ag _ w1 del (ev_refl _ Hp) H3) as (V1 & _). destruct (Ha _ _ Hag) as (I1 & I2 & I3 & I4). rewrite <- I1 in I3.
      destruct (choose_ev so so_perm anyK anyST anyC ltac:(now intros) w w1 ag w2 ou op Hp I2 ltac:(now intros) V1 I3 H4) as (V2 & _). exact (ev_agents _ _ V2). }
    assert (Sub : forall st, pick_move (augmented_utility w cu eu) (du, del) (ou, op) = Some st -> st = del \/ op = Some st).
    { intros st Est. unfold pick_move in Est. cbn [fst snd] in Est. destruct op as [s|].
      - match type of Est with (if ?b then _ else _) = _ => destruct b end; [now right|]. destruct (ltb _ du); cbn in Est; [left; congruence | discriminate].
      - destruct (ltb _ du); cbn in Est; [left; congruence | discriminate]. }
    split; [|exact (proj2 (ej_tidy _ _ E2))]. intros a bg new id r G1 G2 G3 J. cbn [put_agent with_agents w_agents w_pools] in G1, J. rewrite Ea in G1. rewrite (ej_pools _ _ E2) in J. rewrite get_set in G1.
    destruct (Nat.eqb_spec uid a) as [<-|Ne]; [|exact (Sp a bg new id r G1 G2 G3 J)]. injection G1 as <-. cbn [agent_set_new a_new] in G2. apply get_In in G3. apply L in J.
    destruct (Sub new G2) as [-> | Eo]; [rewrite D1 in G3; contradiction|]. apply (N2 new Eo) in G3. lia.
  Qed.

  (** ** carrying out a move *)
  Lemma remove_delegations_rks refs w r w' : ~ In r refs -> rks refs w -> remove_delegations w r = Ok w' -> rks refs w'.
  Proof.
    intros Hn R H. unfold remove_delegations in H. apply bind_ok in H as (p & _ & H). apply bind_ok in H as (w1 & H1 & H). injection H as <-.
    assert (Q : rks refs w1).
    { refine (foldM_inv _ (fun x => rks refs x) _ w w1 R _ H1). intros x a y _ Rx J. unfold remove_one_delegation in J. apply bind_ok in J as (ag & _ & J). apply bind_ok in J as (st & _ & J). apply bind_ok in J as (v & _ & J). apply bind_ok in J as (q & _ & J). injection J as <-.
      apply rks_store; [exact Hn|]. exact Rx. }
    destruct (w_simul w1); exact Q.
  Qed.
  Lemma values_pop (d : dict nat) id r : NoDup (keys d) -> get d id = Some r -> Permutation (values d) (r :: values (pop d id)).
  Proof.
    induction d as [|[j x] d IH]; intros N G; [discriminate|]. cbn in N. apply NoDup_cons_iff in N as [N1 N2]. cbn in G |- *. destruct (Nat.eqb_spec id j) as [->|Ne].
    - injection G as ->. reflexivity.
    - rewrite (IH N2 G). cbn. apply perm_swap.
  Qed.
  Lemma values_set_in (d : dict nat) id r old refs : NoDup (keys d) -> get d id = Some old -> Permutation (values d) (old :: refs) -> Permutation (values (set d id r)) (r :: refs).
  Proof.
    intros N G P. apply (Permutation_cons_inv (a := old)). rewrite perm_swap, <- P. clear P refs.
    induction d as [|[j x] d IH]; [discriminate|]. cbn in N. apply NoDup_cons_iff in N as [N1 N2]. cbn in G |- *. destruct (Nat.eqb_spec id j) as [->|Ne].
    - injection G as ->. cbn. apply perm_swap.
    - cbn. rewrite perm_swap. rewrite (IH N2 G). apply perm_swap.
  Qed.
  Lemma values_set_new (d : dict nat) id r : get d id = None -> Permutation (values (set d id r)) (r :: values d).
  Proof.
    induction d as [|[j x] d IH]; intros G; [reflexivity|]. cbn in G |- *. destruct (Nat.eqb_spec id j) as [->|Ne]; [discriminate|]. cbn. rewrite (IH G). apply perm_swap.
  Qed.
  Lemma rank_remove_rk refs w r w' : rank_ok K1 (w_heap w) m refs (w_rank w) -> rank_remove w r = Ok w' ->
    exists refs', Permutation refs (r :: refs') /\ rank_ok K1 (w_heap w') m refs' (w_rank w') /\ w_rankm w' = w_rankm w.
  Proof. intros R H. unfold rank_remove in H. apply bind_ok in H as (p & _ & H). apply bind_ok in H as (l & Hl & H). injection H as <-. destruct (rank_ok_remove _ _ _ _ _ _ _ _ R Hl) as (refs' & P & R'). exists refs'. now split. Qed.
  Lemma rankm_remove_rk refs w r w' : rank_ok (pool_key_myopic (w_rss w)) (w_heap w) m refs (w_rankm w) -> rankm_remove w r = Ok w' ->
    exists refs', Permutation refs (r :: refs') /\ rank_ok (pool_key_myopic (w_rss w')) (w_heap w') m refs' (w_rankm w') /\ w_rank w' = w_rank w.
  Proof. intros R H. unfold rankm_remove in H. apply bind_ok in H as (p & _ & H). apply bind_ok in H as (k & _ & H). apply bind_ok in H as (l & Hl & H). injection H as <-. destruct (rank_ok_remove _ _ _ _ _ _ _ _ R Hl) as (refs' & P & R'). exists refs'. now split. Qed.
  Lemma rank_add_rk refs w r w' : rank_ok K1 (w_heap w) m refs (w_rank w) -> rank_add w r = Ok w' -> rank_ok K1 (w_heap w') m (r :: refs) (w_rank w') /\ w_rankm w' = w_rankm w.
  Proof. intros R H. unfold rank_add in H. apply bind_ok in H as (p & Hp & H). injection H as <-. apply of_option_ok in Hp. split; [|reflexivity]. cbn. eapply rank_ok_add; [exact O | exact R | exact Hp | reflexivity]. Qed.
  Lemma rankm_add_rk refs w r w' : rank_ok (pool_key_myopic (w_rss w)) (w_heap w) m refs (w_rankm w) -> rankm_add w r = Ok w' -> rank_ok (pool_key_myopic (w_rss w')) (w_heap w') m (r :: refs) (w_rankm w') /\ w_rank w' = w_rank w.
  Proof. intros R H. unfold rankm_add in H. apply bind_ok in H as (p & Hp & H). apply bind_ok in H as (k & Hk & H). injection H as <-. apply of_option_ok in Hp. split; [|reflexivity]. cbn. eapply rank_ok_add; [exact O | exact R | exact Hp | exact Hk]. Qed.

  Lemma hk_own w w' : hk w w' -> w_pools w' = w_pools w -> own_id w -> own_id w'.
  Proof. intros H E [N H0]. split; rewrite E; [exact N|]. intros id r G. destruct (H0 _ _ G) as (p & Gp & Ip). destruct (H _ _ Gp) as (q & Gq & T1 & _). exists q. split; [exact Gq | congruence]. Qed.
  Lemma close_tidy w0 w id w' : ex w0 w -> tidy w -> close_pool w id = Ok w' -> tidy w'.
  Proof.
    intros Ex [[N H0] [R1 R2]] H. destruct (close_ex anyK anyST anyC ltac:(now intros) w w id w' (ex_refl _ _ _ _ (ex_book _ _ _ _ _ Ex)) H) as [Ex' P'].
    assert (Nv := own_nodup w (conj N H0)). unfold close_pool in H. apply bind_ok in H as (r & Hr & H). apply of_option_ok in Hr. apply bind_ok in H as (w1 & H1 & H). apply bind_ok in H as (w2 & H2 & H). apply bind_ok in H as (w3 & H3 & H).
    assert (F1 := rank_remove_frame _ _ _ H1). assert (F2 := rankm_remove_frame _ _ _ H2).
    destruct (rank_remove_rk _ _ _ _ R1 H1) as (refs1 & Pm1 & R1' & Em1).
    assert (R2' : rank_ok (pool_key_myopic (w_rss w1)) (w_heap w1) m (values (w_pools w)) (w_rankm w1)) by (destruct F1 as (-> & _ & _ & -> & _); now rewrite Em1).
    destruct (rankm_remove_rk _ _ _ _ R2' H2) as (refs2 & Pm2 & R2'' & Em2).
    assert (V := values_pop _ _ _ N Hr).
    assert (Q1 : Permutation refs1 (values (pop (w_pools w) id))) by (apply (Permutation_cons_inv (a := r)); rewrite <- Pm1; exact V).
    assert (Q2 : Permutation refs2 (values (pop (w_pools w) id))) by (apply (Permutation_cons_inv (a := r)); rewrite <- Pm2; exact V).
    assert (Nr : ~ In r (values (pop (w_pools w) id))) by (apply (Permutation_NoDup V) in Nv; now apply NoDup_cons_iff in Nv as [Nv _]).
    assert (R : rks (values (pop (w_pools w) id)) w2).
    { split; [|eapply rank_ok_perm; [exact Q2 | exact R2'']]. rewrite Em2. destruct F2 as (-> & _). eapply rank_ok_perm; [exact Q1 | exact R1']. }
    apply (remove_delegations_rks _ _ _ _ Nr R) in H3. injection H as <-. cbn [w_pools with_pools] in P'.
    split; [|eapply (rks_same _ w3); [reflexivity.. |]; cbn [w_pools with_pools]; now rewrite P'].
    split; cbn [w_pools with_pools w_heap]; rewrite P'; [now apply NoDup_pop|]. intros i x G. rewrite get_pop in G by exact N. destruct (Nat.eqb id i); [discriminate|]. destruct (H0 _ _ G) as (p & Gp & Ip).
    destruct (ex_hk _ _ _ _ _ Ex' _ _ Gp) as (q & Gq & T1 & _). exists q. split; [exact Gq | congruence].
  Qed.
  Lemma update_pool_tidy w0 uid w id w' ag new st r old : ex w0 w -> tidy w -> get (w_agents w) uid = Some ag -> a_new ag = Some new -> a_strategy ag = Some st -> get (s_owned new) id = Some r -> get (s_owned st) id = Some old ->
    get (w_pools w) id = Some old -> ~ In r (values (w_pools w)) -> update_pool uid w id = Ok w' -> tidy w' /\ Permutation (old :: values (w_pools w')) (r :: values (w_pools w)).
  Proof.
    intros Ex [[N H0] R] Ga Gn Gs Gr Go Gp Nr H. assert (Bk := ex_book _ _ _ _ _ Ex). assert (E0 := ex_refl _ _ _ _ Bk).
    destruct (update_pool_ex anyK anyST anyC ltac:(now intros) w uid w id w' E0 H) as (Ex' & ag0 & new0 & r0 & J1 & J2 & J3 & J4 & J5).
    assert (r0 = r) by congruence. subst r0.
    assert (Pw : Permutation (values (w_pools w')) (values (set (w_pools w) id r))).
    { assert (N1 : NoDup (keys (w_pools w'))) by (rewrite J5; now apply NoDup_set). assert (N2 : NoDup (keys (set (w_pools w) id r))) by now apply NoDup_set.
      apply values_perm. apply NoDup_Permutation; [exact (NoDup_map_inv _ _ N1) | exact (NoDup_map_inv _ _ N2) |].
      intros [i x]. split; intros J; apply In_get in J; try assumption; apply get_In; [now rewrite <- J4 | now rewrite J4]. }
    unfold update_pool in H. unfold the_agent in H. rewrite Ga in H. cbn [of_option bind] in H. rewrite Gn in H. cbn [of_option bind] in H. rewrite Gr in H. cbn [of_option bind] in H.
    apply bind_ok in H as (p & Hp & H). apply of_option_ok in Hp. apply bind_ok in H as (w1 & H1 & H).
    assert (Q : ex w w1 /\ w_pools w1 = w_pools w /\ rks (values (w_pools w)) w1).
    { destruct (p_private p && _)%bool; [|injection H1 as <-; auto]. destruct (remove_delegations_ex anyK anyST anyC ltac:(now intros) w w r w1 E0 H1) as [X1 X2]. split; [exact X1|]. split; [exact X2|]. exact (remove_delegations_rks _ _ _ _ Nr R H1). }
    destruct Q as (E1 & P1 & R1).
    assert (Eo := ex_owns _ _ _ _ _ E1 uid). rewrite Ga in Eo.
    apply bind_ok in H as (ag2 & Hag2 & H). apply of_option_ok in Hag2. cbn [with_pools w_agents] in Hag2. rewrite Hag2 in Eo. unfold owns in Eo. cbn in Eo. rewrite Gs, Gn in Eo.
    apply bind_ok in H as (st2 & Hst2 & H). apply of_option_ok in Hst2. rewrite Hst2 in Eo. cbn in Eo. injection Eo as Eo _ _. rewrite Eo, Go in H. cbn [of_option bind] in H.
    apply bind_ok in H as (w3 & H3 & H). apply bind_ok in H as (w4 & H4 & H). apply bind_ok in H as (w5 & H5 & H). apply bind_ok in H as (w6 & H6 & H).
    set (w2 := with_pools (set (w_pools w1) id r) w1) in *.
    assert (F3 := rank_remove_frame _ _ _ H3). assert (F4 := rank_add_frame _ _ _ H4). assert (F5 := rankm_remove_frame _ _ _ H5). assert (F6 := rankm_add_frame _ _ _ H6).
    destruct R1 as [R1a R1b].
    destruct (rank_remove_rk (values (w_pools w)) w2 old w3 R1a H3) as (refs1 & Pm1 & R3 & Em3). destruct (rank_add_rk refs1 w3 r w4 R3 H4) as [R4 Em4].
    assert (Rb : rank_ok (pool_key_myopic (w_rss w4)) (w_heap w4) m (values (w_pools w)) (w_rankm w4)).
    { destruct F3 as (F3h & _ & _ & F3r & _). destruct F4 as (F4h & _ & _ & F4r & _). rewrite Em4, Em3, F4h, F3h, F4r, F3r. exact R1b. }
    destruct (rankm_remove_rk _ _ _ _ Rb H5) as (refs2 & Pm2 & R5 & Em5). destruct (rankm_add_rk refs2 w5 r w6 R5 H6) as [R6 Em6].
    assert (R4' : rank_ok K1 (w_heap w6) m (r :: refs1) (w_rank w6)). { destruct F5 as (F5h & _). destruct F6 as (F6h & _). rewrite Em6, Em5, F6h, F5h. exact R4. }
    assert (V1 := values_set_in (w_pools w) id r old refs1 N Gp Pm1). assert (V2 := values_set_in (w_pools w) id r old refs2 N Gp Pm2).
    split; [|rewrite Pw, V1, perm_swap, Pm1; reflexivity].
    injection H as <-. split.
    - split; [rewrite J5; now apply NoDup_set|]. intros i x G. rewrite J4, get_set in G. destruct (Nat.eqb_spec id i) as [<-|Ne].
      + injection G as <-. destruct (proj2 Bk _ _ Ga) as (_ & _ & _ & I4). destruct (I4 new Gn) as (_ & _ & ps & Fo & _). destruct (mine_get _ _ _ _ _ _ Fo Gr) as (q & Gq & Iq & _).
        destruct (ex_hk _ _ _ _ _ Ex' _ _ Gq) as (q' & Gq' & T1 & _). exists q'. split; [exact Gq' | congruence].
      + destruct (H0 _ _ G) as (q & Gq & Iq). destruct (ex_hk _ _ _ _ _ Ex' _ _ Gq) as (q' & Gq' & T1 & _). exists q'. split; [exact Gq' | congruence].
    - cbn [w_pools with_pools] in Pw |- *. split; cbn [with_pools w_heap w_rank w_rankm w_rss w_pools]; eapply rank_ok_perm; [|exact R4'| |exact R6]; symmetry; rewrite Pw; assumption.
  Qed.
  Lemma open_tidy w0 uid w id w' ag st r : ex w0 w -> tidy w -> get (w_agents w) uid = Some ag -> a_strategy ag = Some st -> get (s_owned st) id = Some r ->
    get (w_pools w) id = None -> ~ In r (values (w_pools w)) -> open_pool uid w id = Ok w' -> tidy w' /\ Permutation (values (w_pools w')) (r :: values (w_pools w)).
  Proof.
    intros Ex [[N H0] [R1 R2]] Ga Gs Gr Gp Nr H. assert (Bk := ex_book _ _ _ _ _ Ex). assert (E0 := ex_refl _ _ _ _ Bk).
    unfold open_pool in H. unfold the_agent in H. rewrite Ga in H. cbn [of_option bind] in H. unfold the_strategy in H. rewrite Gs in H. cbn [of_option bind] in H. rewrite Gr in H. cbn [of_option bind] in H.
    apply bind_ok in H as (w2 & H2 & H). set (w1 := with_pools (set (w_pools w) id r) w) in *. assert (F2 := rank_add_frame _ _ _ H2). assert (F3 := rankm_add_frame _ _ _ H).
    destruct (rank_add_rk (values (w_pools w)) w1 r w2 R1 H2) as [R1' Em2].
    assert (Rb : rank_ok (pool_key_myopic (w_rss w2)) (w_heap w2) m (values (w_pools w)) (w_rankm w2)) by (destruct F2 as (-> & _ & _ & -> & _); rewrite Em2; exact R2).
    destruct (rankm_add_rk (values (w_pools w)) w2 r w' Rb H) as [R2' Em3].
    assert (Pw : w_pools w' = set (w_pools w) id r). { destruct F2 as (_ & _ & F2 & _). destruct F3 as (_ & _ & F3 & _). rewrite F3, F2. reflexivity. }
    assert (Hw : w_heap w' = w_heap w). { destruct F2 as (F2 & _). destruct F3 as (F3 & _). rewrite F3, F2. reflexivity. }
    assert (V := values_set_new (w_pools w) id r Gp). split; [|now rewrite Pw]. split.
    - split; rewrite Pw; [now apply NoDup_set|]. intros i x G. rewrite Hw. rewrite get_set in G. destruct (Nat.eqb_spec id i) as [<-|Ne]; [|now apply H0]. injection G as <-.
      destruct (proj2 Bk _ _ Ga) as (_ & _ & I3 & _). destruct (I3 st Gs) as (_ & _ & ps & Fo & _). destruct (mine_get _ _ _ _ _ _ Fo Gr) as (q & Gq & Iq & _). eauto.
    - rewrite Pw. split; (eapply rank_ok_perm; [symmetry; exact V|]); [|exact R2']. destruct F3 as (F3 & _). rewrite F3, Em3. exact R1'.
  Qed.

  Lemma so_nodup a l : NoDup l -> NoDup (so a l).
  Proof. intros N. eapply Permutation_NoDup; [symmetry; apply so_perm | exact N]. Qed.
  Lemma filter_nodup (l : list nat) f : NoDup l -> NoDup (filter f l).
  Proof. apply NoDup_filter. Qed.
  Lemma execute_good w uid w' : good w -> execute_strategy so w uid = Ok w' -> good w'.
  Proof.
    intros (F & Sp & R) H. assert (F' : full w') by exact (proj1 (execute_full so so_perm anyK anyST anyC ltac:(now intros) w uid w' F H)).
    assert (Tw : tidy w) by (split; [now apply full_own | exact R]). assert (Hb := proj1 F). assert (Hr := proj2 F). destruct Hr as [N Hr].
    unfold execute_strategy in H. apply bind_ok in H as (ag & Hag & H). apply bind_ok in H as (old & Hold & H). apply bind_ok in H as (new & Hnew & H).
    apply the_agent_get in Hag. unfold the_strategy in Hold. apply of_option_ok in Hold. apply of_option_ok in Hnew.
    apply bind_ok in H as (w1 & H1 & H). apply bind_ok in H as (w2 & H2 & H). apply bind_ok in H as (w3 & H3 & H). apply bind_ok in H as (w4 & H4 & H). apply bind_ok in H as (ag4 & Hag4 & H). apply the_agent_get in Hag4.
    set (oo := keys (s_owned old)) in *. set (no := keys (s_owned new)) in *.
    assert (E0 := ex_refl anyK anyST anyC w Hb).
    assert (Sno : forall id r, get (s_owned new) id = Some r -> exists p, get (w_heap w) r = Some p /\ p_id p = id /\ p_owner p = uid).
    { intros id r G. destruct (proj2 Hb _ _ Hag) as (_ & _ & _ & I4). destruct (I4 new Hnew) as (_ & _ & ps & Fo & _). exact (mine_get _ _ _ _ _ _ Fo G). }
    assert (Nno : NoDup no). { destruct (proj2 Hb _ _ Hag) as (_ & _ & _ & I4). exact (proj1 (I4 new Hnew)). }
    assert (Noo : NoDup oo). { destruct (proj2 Hb _ _ Hag) as (_ & _ & I3 & _). exact (proj1 (I3 old Hold)). }
    (* delegations *)
    assert (Q2 : (ex w w2 /\ tidy w2) /\ w_pools w2 = w_pools w).
    { assert (Q1 : (ex w w1 /\ tidy w1) /\ w_pools w1 = w_pools w).
      { refine (foldM_inv _ (fun x => (ex w x /\ tidy x) /\ w_pools x = w_pools w) _ w w1 _ _ H1); [auto|]. intros x id y _ [[X1 X2] X3] J. destruct (touch_ex anyK anyST anyC w _ _ _ _ _ X1 J) as [Y1 Y2]. destruct (touch_tidy _ _ _ _ _ X2 J) as (Y3 & _). split; [now split | congruence]. }
      refine (foldM_inv _ (fun x => (ex w x /\ tidy x) /\ w_pools x = w_pools w) _ w1 w2 Q1 _ H2). intros x id y _ [[X1 X2] X3] J. destruct (touch_ex anyK anyST anyC w _ _ _ _ _ X1 J) as [Y1 Y2]. destruct (touch_tidy _ _ _ _ _ X2 J) as (Y3 & _). split; [now split | congruence]. }
    destruct Q2 as [[E2 T2] P2].
    (* closing pools *)
    destruct (fold_pools close_pool (fun x => ex w x /\ tidy x /\ incl (values (w_pools x)) (values (w_pools w))) (fun _ => None)) with (3 := H3) as [(E3 & T3 & V3) P3].
    { intros x id x' (X1 & X2 & X3) J. assert (N' := proj1 (proj1 X2)). destruct (close_ex anyK anyST anyC ltac:(now intros) w x id x' X1 J) as [Y1 Y2]. assert (Y3 := close_tidy w x id x' X1 X2 J).
      split; [split; [exact Y1 | split; [exact Y3|]]|].
      - rewrite Y2. intros r Jr. apply X3. unfold values in *. apply in_map_iff in Jr as ([i y] & <- & Jr). apply in_map_iff. exists (i, y). split; [reflexivity|]. clear -Jr. induction (w_pools x) as [|[j z] d IH]; cbn in *; [exact Jr|]. destruct (Nat.eqb id j); cbn in *; tauto.
      - intros i. rewrite Y2. now apply get_pop. }
    { split; [exact E2|]. split; [exact T2|]. rewrite P2. apply incl_refl. }
    assert (L1 : forall i, In i (so (oo ++ no) (diff oo no)) <-> In i oo /\ ~ In i no) by (intros i; rewrite <- diff_In; split; apply Permutation_in; [|symmetry]; apply so_perm).
    assert (L2 : forall i, In i (so (no ++ oo) (inter no oo)) <-> In i no /\ In i oo) by (intros i; rewrite <- inter_In; split; apply Permutation_in; [|symmetry]; apply so_perm).
    assert (L3 : forall i, In i (so (no ++ oo) (diff no oo)) <-> In i no /\ ~ In i oo) by (intros i; rewrite <- diff_In; split; apply Permutation_in; [|symmetry]; apply so_perm).
    assert (Nd2 : NoDup (so (no ++ oo) (inter no oo))) by (apply so_nodup, filter_nodup, Nno).
    assert (Nd3 : NoDup (so (no ++ oo) (diff no oo))) by (apply so_nodup, filter_nodup, Nno).
    assert (Pold : forall i, In i oo -> get (w_pools w) i = get (s_owned old) i).
    { intros i J. apply get_Some_key in J as (r & J). rewrite J. apply Hr. exists uid, ag, old. auto. }
    assert (Away : forall i r, get (s_owned new) i = Some r -> ~ In r (values (w_pools w))) by (intros i r G; exact (Sp uid ag new i r Hag Hnew G)).
    (* updating pools *)
    assert (Upd : forall l x x', NoDup l -> (forall i, In i l -> In i no /\ In i oo /\ get (w_pools x) i = get (s_owned old) i) -> (forall i r, In i l -> get (s_owned new) i = Some r -> ~ In r (values (w_pools x))) ->
              ex w x -> tidy x -> foldM (update_pool uid) l x = Ok x' -> (ex w x' /\ tidy x') /\ (forall r, In r (values (w_pools x')) -> In r (values (w_pools x)) \/ exists i, In i l /\ get (s_owned new) i = Some r) /\
              (forall i, ~ In i l -> get (w_pools x') i = get (w_pools x) i)).
    { induction l as [|id l IH]; intros x x' Nl Hl Al Xe Xt Hx; cbn [foldM] in Hx; [injection Hx as <-; auto|]. apply bind_ok in Hx as (y & Hy & Hx). apply NoDup_cons_iff in Nl as [Nl1 Nl2].
      assert (Eo := ex_owns _ _ _ _ _ Xe uid). rewrite Hag in Eo. destruct (get (w_agents x) uid) as [bg|] eqn:Gb; [|discriminate]. unfold owns in Eo. cbn in Eo. rewrite Hold, Hnew in Eo. destruct (a_strategy bg) as [bst|] eqn:Bs; [|discriminate]. destruct (a_new bg) as [bn|] eqn:Bn; [|discriminate]. cbn in Eo. injection Eo as Eo1 Eo2 _.
      destruct (Hl id (or_introl eq_refl)) as (J1 & J2 & J3). apply get_Some_key in J1 as (r & J1). apply get_Some_key in J2 as (ro & J2). rewrite J2 in J3.
      destruct (update_pool_tidy w uid x id y bg bn bst r ro Xe Xt Gb Bn Bs) as [Ty Py]; [now rewrite Eo2 | now rewrite Eo1 | exact J3 | apply (Al id r); [now left | exact J1] | exact Hy|].
      destruct (update_pool_ex anyK anyST anyC ltac:(now intros) w uid x id y Xe Hy) as (Ey & bg' & bn' & r' & B1 & B2 & B3 & B4 & _). rewrite Gb in B1. injection B1 as <-. rewrite Bn in B2. injection B2 as <-. rewrite Eo2, J1 in B3. injection B3 as <-.
      assert (Vy : forall z, In z (values (w_pools y)) -> z = r \/ In z (values (w_pools x))). { intros z J. assert (J' : In z (ro :: values (w_pools y))) by now right. apply (Permutation_in _ Py) in J' as [<-|J']; auto. }
      destruct (IH y x' Nl2) with (5 := Hx) as ([I1 I2] & I3 & I4); [| | exact Ey | exact Ty |].
      - intros i J. destruct (Hl i (or_intror J)) as (K1' & K2' & K3'). split; [exact K1'|]. split; [exact K2'|]. rewrite B4, get_set. destruct (Nat.eqb_spec id i) as [<-|]; [contradiction | exact K3'].
      - intros i ri J Gi Jv. apply Vy in Jv as [->|Jv]; [|exact (Al i ri (or_intror J) Gi Jv)]. destruct (Sno i r Gi) as (p1 & A1 & A2 & _). destruct (Sno id r J1) as (p2 & A3 & A4 & _). apply Nl1. replace id with i by congruence. exact J.
      - split; [now split|]. split.
        + intros z J. destruct (I3 z J) as [J'|(i & K1' & K2')]; [apply Vy in J' as [->|J']; [right; exists id; split; [now left | exact J1] | now left] | right; exists i; split; [now right | exact K2']].
        + intros i J. rewrite I4 by (intros J'; apply J; now right). rewrite B4, get_set. destruct (Nat.eqb_spec id i) as [->|]; [exfalso; apply J; now left | reflexivity]. }
    destruct (Upd _ w3 w4 Nd2) with (5 := H4) as ([E4 T4] & V4 & P4); [| | exact E3 | exact T3 |].
    { intros i J. apply L2 in J as [J1 J2]. split; [exact J1|]. split; [exact J2|]. rewrite P3, P2. destruct (in_dec Nat.eq_dec i (so (oo ++ no) (diff oo no))) as [J|J]; [apply L1 in J; tauto | now apply Pold]. }
    { intros i r _ G J. apply (Away i r G). now apply V3. }
    (* the new strategy *)
    assert (Eo := ex_owns _ _ _ _ _ E4 uid). rewrite Hag4, Hag in Eo. unfold owns in Eo. cbn in Eo. rewrite Hold, Hnew in Eo. cbn in Eo. destruct (a_new ag4) as [new4|] eqn:En4; [|discriminate]. cbn in Eo. injection Eo as _ Eo Es.
    set (w5 := put_agent w4 uid (agent_set_new None (agent_set_strategy (Some new4) ag4))) in *.
    assert (B5 : book anyK anyST anyC w5). { destruct (proj2 (ex_book _ _ _ _ _ E4) _ _ Hag4) as (I1 & I2 & I3 & I4). apply book_put; cbn [agent_set_new agent_set_strategy a_id a_stake a_strategy a_new]; [exact (ex_book _ _ _ _ _ E4) | exact I1 | exact I2 | now rewrite <- En4 | discriminate]. }
    assert (T5 : tidy w5) by exact T4.
    (* opening pools *)
    assert (Opn : forall l x x', NoDup l -> (forall i, In i l -> In i no /\ get (w_pools x) i = None) -> (forall i r, In i l -> get (s_owned new) i = Some r -> ~ In r (values (w_pools x))) ->
              ex w5 x -> w_agents x = w_agents w5 -> tidy x -> foldM (open_pool uid) l x = Ok x' -> tidy x' /\ w_agents x' = w_agents w5 /\ (forall r, In r (values (w_pools x')) -> In r (values (w_pools x)) \/ exists i, get (s_owned new) i = Some r)).
    { induction l as [|id l IH]; intros x x' Nl Hl Al Xe Xa Xt Hx; cbn [foldM] in Hx; [injection Hx as <-; auto|]. apply bind_ok in Hx as (y & Hy & Hx). apply NoDup_cons_iff in Nl as [Nl1 Nl2].
      assert (Gb : get (w_agents x) uid = Some (agent_set_new None (agent_set_strategy (Some new4) ag4))) by (rewrite Xa; unfold w5; cbn; apply get_set_eq).
      destruct (Hl id (or_introl eq_refl)) as (J1 & J3). apply get_Some_key in J1 as (r & J1).
      destruct (open_tidy w5 uid x id y _ new4 r Xe Xt Gb eq_refl) as [Ty Py]; [now rewrite Eo | exact J3 | apply (Al id r); [now left | exact J1] | exact Hy|].
      destruct (open_ex anyK anyST anyC w5 uid x id y Xe Hy) as (Ey & Ay & bg & bst & r' & B1 & B2 & B3 & B4). rewrite Gb in B1. injection B1 as <-. cbn in B2. injection B2 as <-. rewrite Eo, J1 in B3. injection B3 as <-.
      destruct (IH y x' Nl2) with (6 := Hx) as (I1 & I2 & I3); [| | exact Ey | congruence | exact Ty |].
      - intros i J. destruct (Hl i (or_intror J)) as (K1' & K3'). split; [exact K1'|]. rewrite B4, get_set. destruct (Nat.eqb_spec id i) as [<-|]; [contradiction | exact K3'].
      - intros i ri J Gi Jv. apply (Permutation_in _ Py) in Jv as [<-|Jv]; [|exact (Al i ri (or_intror J) Gi Jv)]. destruct (Sno i r Gi) as (p1 & A1 & A2 & _). destruct (Sno id r J1) as (p2 & A3 & A4 & _). apply Nl1. replace id with i by congruence. exact J.
      - split; [exact I1|]. split; [exact I2|]. intros z J. destruct (I3 z J) as [J'|J']; [|now right]. apply (Permutation_in _ Py) in J' as [<-|J']; [right; eauto | now left]. }
    assert (Nreg : forall i, In i no -> ~ In i oo -> get (w_pools w) i = None).
    { intros i J1 J2. destruct (get (w_pools w) i) as [r|] eqn:G; [|reflexivity]. exfalso. apply get_Some_key in J1 as (rn & J1). destruct (Sno i rn J1) as (p & Gp & Ip & Op).
      apply Hr in G as (b & bg & bst & G1 & G2 & G3). destruct (proj2 Hb _ _ G1) as (_ & _ & I3 & _). destruct (I3 bst G2) as (_ & _ & ps & Fo & _). destruct (mine_get _ _ _ _ _ _ Fo G3) as (q & Gq & Iq & Oq).
      assert (Eb : b = uid). { rewrite <- Oq, <- Op. apply (proj2 (proj1 Hb) r rn q p Gq Gp). congruence. } rewrite Eb, Hag in G1. injection G1 as <-. rewrite Hold in G2. injection G2 as <-. apply J2. apply get_Some_key. eauto. }
    destruct (Opn _ w5 w' Nd3) with (6 := H) as (T' & A' & V'); [| | now apply ex_refl | reflexivity | exact T5 |].
    { intros i J. apply L3 in J as [J1 J2]. split; [exact J1|]. change (w_pools w5) with (w_pools w4). rewrite P4 by (intros J; apply L2 in J; tauto). rewrite P3, P2. destruct (in_dec Nat.eq_dec i (so (oo ++ no) (diff oo no))) as [J|J]; [reflexivity | now apply Nreg]. }
    { intros i r J G Jv. change (w_pools w5) with (w_pools w4) in Jv. apply V4 in Jv as [Jv|(j & K1' & K2')]; [apply V3 in Jv; exact (Away i r G Jv)|]. destruct (Sno i r G) as (p1 & A1 & A2 & _). destruct (Sno j r K2') as (p2 & A3 & A4 & _). assert (Eij : i = j) by congruence. rewrite <- Eij in K1'. apply L2 in K1'. apply L3 in J. tauto. }
    split; [exact F'|]. split; [|exact (proj2 T')].
    (* prepared pools of the other agents *)
    intros b bg bnew id r G1 G2 G3 J. rewrite A' in G1. unfold w5 in G1. cbn in G1. rewrite get_set in G1. destruct (Nat.eqb_spec uid b) as [<-|Ne]; [injection G1 as <-; discriminate|].
    assert (Q := ex_owns _ _ _ _ _ E4 b). rewrite G1 in Q. destruct (get (w_agents w) b) as [bg0|] eqn:G0; [|discriminate]. cbn in Q. unfold owns in Q. injection Q as Q1 Q2 _. rewrite G2 in Q2. destruct (a_new bg0) as [bn0|] eqn:N0; [|discriminate]. cbn in Q2. injection Q2 as Q2. rewrite Q2 in G3.
    destruct (proj2 Hb _ _ G0) as (_ & _ & _ & I4). destruct (I4 bn0 N0) as (_ & _ & ps & Fo & _). destruct (mine_get _ _ _ _ _ _ Fo G3) as (p & Gp & Ip & Op).
    assert (Q : In r (values (w_pools w)) \/ exists i, get (s_owned new) i = Some r).
    { destruct (V' r J) as [J1|J1]; [|now right]. change (w_pools w5) with (w_pools w4) in J1. destruct (V4 r J1) as [J2|(i & _ & J2)]; [left; now apply V3 | right; eauto]. }
    destruct Q as [Q|(i & Q)]; [exact (Sp b bg0 bn0 id r G0 N0 G3 Q)|]. destruct (Sno i r Q) as (q & Gq & _ & Oq). congruence.
  Qed.

  (** ** rounds and phases *)
  Lemma event_good w e w' : good w -> do_event so w e = Ok w' -> good w'.
  Proof.
    assert (Adv : forall x uid x', good x -> advance so x uid = Ok x' -> good x').
    { intros x uid x' G H. unfold advance in H. apply bind_ok in H as (ag & _ & H). destruct (a_new ag); [|now injection H as <-]. apply bind_ok in H as (x1 & H1 & H). injection H as <-. exact (execute_good _ _ _ G H1). }
    intros G H. destruct e as [a|a]; cbn in H; [|exact (Adv _ _ _ G H)]. unfold agent_step in H. apply bind_ok in H as (w1 & H1 & H). assert (G1 := update_good _ _ _ G H1).
    destruct (w_simul w1); [now injection H as <- | exact (Adv _ _ _ G1 H)].
  Qed.
  Lemma events_good evs w w' : good w -> foldM (do_event so) evs w = Ok w' -> good w'.
  Proof. intros G H. refine (foldM_inv _ good _ _ _ G _ H). intros x e y _ Gx J. exact (event_good _ _ _ Gx J). Qed.
  Lemma change_phase_good s s' : good (s_w s) -> change_phase s = Ok s' -> good (s_w s').
  Proof.
    intros (F & Sp & R) H. assert (F' := proj1 (change_phase_full anyK anyST anyC s s' F H)). assert (Nv := own_nodup _ (full_own _ F)).
    unfold change_phase in H. apply bind_ok in H as (w1 & H1 & H). apply bind_ok in H as (s2 & H2 & H). apply bind_ok in H as (w3 & H3 & H). cbn [s_w set_phase] in H1.
    assert (E' : s_w s' = w3) by (injection H as <-; destruct (phase_settings _ _); reflexivity). rewrite E' in *. clear H E'.
    destruct (unrank_all m (s_w s) (values (w_pools (s_w s))) (s_w s) w1) as (E1 & U1 & U2); [now destruct (s_w s) | apply R | apply R | exact Nv | exact H1|].
    assert (Q : w_agents w1 = w_agents (s_w s) /\ w_heap w1 = w_heap (s_w s) /\ w_pools w1 = w_pools (s_w s)) by (rewrite E1; repeat split; reflexivity). destruct Q as (Q1 & Q2 & Q3).
    assert (SH := foldM_settings_shape _ _ _ H2). cbn [s_w set_w] in SH. decompose [and] SH. clear SH.
    set (w2 := s_w s2) in *.
    assert (Fempty : forall K K' l, rank_ok K (w_heap (s_w s)) m [] l -> rank_ok K' (w_heap w2) m [] l) by (intros K K' l X; eapply rank_ok_frame; [|exact X]; intros ? ? []).
    assert (P2 : w_pools w2 = w_pools (s_w s)) by congruence. rewrite P2 in H3.
    destruct (rerank_all O m w2 (values (w_pools (s_w s))) [] w2 w3) as (F1 & F2 & F3 & _); [exact Nv | now destruct w2 | | | reflexivity | intros ? [] | exact H3|].
    { match goal with E : w_rank w2 = _ |- _ => rewrite E end. eapply Fempty, U1. } { match goal with E : w_rankm w2 = _ |- _ => rewrite E end. eapply Fempty, U2. }
    rewrite app_nil_r in F2, F3.
    assert (P3 : w_pools w3 = w_pools (s_w s)) by (rewrite F1; cbn; exact P2). assert (A3 : w_agents w3 = w_agents (s_w s)) by (rewrite F1; cbn; congruence). assert (R3 : w_rss w3 = w_rss w2) by (rewrite F1; reflexivity).
    split; [exact F'|]. split.
    - intros a ag new id r. rewrite A3, P3. apply Sp.
    - rewrite P3. split; [|rewrite R3]; (eapply rank_ok_perm; [symmetry; apply Permutation_rev|]); assumption.
  Qed.
  Lemma good_same w w' : w_heap w' = w_heap w -> w_agents w' = w_agents w -> w_pools w' = w_pools w -> w_next w' = w_next w -> w_idseq w' = w_idseq w -> w_rss w' = w_rss w -> w_rank w' = w_rank w -> w_rankm w' = w_rankm w -> good w -> good w'.
  Proof.
    intros E1 E2 E3 E4 E5 E6 E7 E8 (F & Sp & R). split; [exact (full_same _ _ _ w w' E1 E2 E3 E4 E5 F)|]. split; [unfold sep; rewrite E2, E3; exact Sp | rewrite E3; exact (rks_same _ w w' E1 E7 E8 E6 R)].
  Qed.
  Lemma sim_step_good ch s s' : good (s_w s) -> sim_step so ch s = Ok s' -> good (s_w s').
  Proof.
    intros G H. apply sim_step_cases in H as [[_ ->]|(_ & w & H & Q)]; [exact G|].
    assert (Gw : good w). { unfold schedule_step in H. apply bind_ok in H as (evs & _ & H). exact (events_good _ _ _ G H). }
    assert (Id : forall x, good x -> good (with_idle true x)) by (intros x; now apply good_same).
    destruct Q as [[_ ->]|[(_ & _ & ->)|[(_ & _ & _ & s4 & H4 & ->)|(_ & _ & _ & ->)]]]; first [exact (Id _ Gw) | exact Gw | exact (Id _ (change_phase_good (noted s w) s4 Gw H4))].
  Qed.
  Lemma visible_good s0 w : good (s_w s0) -> visible so s0 w -> good w.
  Proof.
    intros G0. assert (Re : forall s, reach so s0 s -> good (s_w s)) by (intros s R; induction R as [|ch s s' R IH H]; [exact G0 | exact (sim_step_good _ _ _ IH H)]).
    intros V. destruct V as [s R|s ch evs1 evs2 w R _ H]; [now apply Re | exact (events_good _ _ _ (Re s R) H)].
  Qed.
End AnyRank.
Lemma init_good {A : Arith} (O : OrdLaws A) g profiles stakes costs (s0 : sim A) : init g profiles stakes costs = Ok s0 -> good (Z.to_nat (r_k (w_rss (s_w s0)) + 1)) (s_w s0).
Proof.
  intros H. split; [exact (start_full anyK _ _ _ _ _ I H)|]. apply init_fresh in H. split.
  - intros a ag new id r G1 G2 G3 J. rewrite (fs_pools _ _ _ _ _ H) in J. exact J.
  - rewrite (fs_pools _ _ _ _ _ H). split; [rewrite (fs_rank _ _ _ _ _ H) | rewrite (fs_rankm _ _ _ _ _ H)]; apply (rank_ok_nones O).
Qed.
