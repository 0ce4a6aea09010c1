(** What the agents' own books say under every activation order: who operates which pool, and how much of an agent's stake its present and its prepared strategy use.
    [C] is what is claimed of the stake, the delegations and the pledges of a strategy, [K] of the number of pools. *)
From Coq Require Import ZArith List Bool Arith Lia Permutation.
From Verif Require Import Num Py Rewards SortedKeyList World Stakeholder Sched Sim Init Reach Spec ListFacts Greedy Inv SimInv.
Import ListNotations.

Section AnyBooks.
  Context {A : Arith}.
  Variable so : list nat -> list nat -> list nat.
  Hypothesis so_perm : set_order so.
  Notation num := (T A).
  Implicit Types w : world A. Implicit Types p q : pool A. Implicit Types st new : strategy A. Implicit Types ag : agent A. Implicit Types s : sim A.
  Variable K : nat -> Prop.
  Hypothesis K_nil : K 0.
  Variable ST : num -> Prop.
  Variable C : num -> dict num -> list num -> Prop.
  Hypothesis C_pop : forall x d l k, C x d l -> C x (pop d k) l.
  Hypothesis C_nil : forall x, ST x -> C x [] [].
  Hypothesis C_del : forall x rs el, ST x -> ltb x min_stake_unit = false -> C x (greedy_allocations rs el x) [].
  Hypothesis C_op : forall x thr n (q : num) rs el d, ST x -> (1 <= n)%Z -> pledge_per_pool x thr n = Ok q ->
    d = [] \/ (ltb zero (sub x (mul q (ofZ n))) = true /\ ltb (sub x (mul q (ofZ n))) min_stake_unit = false /\ d = greedy_allocations rs el (sub x (mul q (ofZ n)))) -> C x d (repeat q (Z.to_nat n)).

  (** the terms of a pool *)
  Definition terms p q : Prop := p_id q = p_id p /\ p_owner q = p_owner p /\ p_cost q = p_cost p /\ p_pledge q = p_pledge p /\ p_margin q = p_margin p /\ p_private q = p_private p.
  Lemma terms_refl p : terms p p.  Proof. repeat split. Qed.
  Lemma terms_trans p q p' : terms p q -> terms q p' -> terms p p'.
  Proof. intros (A1 & A2 & A3 & A4 & A5 & A6) (B1 & B2 & B3 & B4 & B5 & B6). unfold terms. repeat split; congruence. Qed.
  Lemma terms_upd v a p : terms p (update_delegation v a p).
  Proof. repeat split. Qed.
  Definition hk w w' : Prop := forall r p, get (w_heap w) r = Some p -> exists q, get (w_heap w') r = Some q /\ terms p q.
  Lemma hk_refl w : hk w w.  Proof. intros r p G. exists p. split; [exact G | apply terms_refl]. Qed.
  Lemma hk_trans w w1 w2 : hk w w1 -> hk w1 w2 -> hk w w2.
  Proof. intros H1 H2 r p G. destruct (H1 r p G) as (q & G1 & T1). destruct (H2 r q G1) as (q2 & G2 & T2). exists q2. split; [exact G2 | eapply terms_trans; eassumption]. Qed.
  Lemma hk_eq w w' : w_heap w' = w_heap w -> hk w w'.  Proof. intros E r p G. exists p. rewrite E. split; [exact G | apply terms_refl]. Qed.

  (** pool objects: every id belongs to one operator *)
  Definition hp w : Prop := (forall r p, get (w_heap w) r = Some p -> r < w_next w /\ 1 <= p_id p <= w_idseq w) /\
    (forall r r' p q, get (w_heap w) r = Some p -> get (w_heap w) r' = Some q -> p_id p = p_id q -> p_owner p = p_owner q).
  Definition mine w (a : nat) (e : nat * nat) (p : pool A) : Prop := get (w_heap w) (snd e) = Some p /\ p_id p = fst e /\ p_owner p = a.
  Definition strat_ok w (a : nat) (x : num) st : Prop := NoDup (keys (s_owned st)) /\ K (length (s_owned st)) /\
    exists ps, Forall2 (mine w a) (s_owned st) ps /\ C x (s_alloc st) (map p_pledge ps).
  Definition opt_ok w a x (o : option (strategy A)) : Prop := forall st, o = Some st -> strat_ok w a x st.
  Definition agents_ok w : Prop := forall a ag, get (w_agents w) a = Some ag -> a_id ag = a /\ ST (a_stake ag) /\ opt_ok w a (a_stake ag) (a_strategy ag) /\ opt_ok w a (a_stake ag) (a_new ag).
  Definition book w : Prop := hp w /\ agents_ok w.

  Lemma strat_hk w w' a x st : hk w w' -> strat_ok w a x st -> strat_ok w' a x st.
  Proof.
    intros H (N & L & ps & F & Hc). split; [exact N|]. split; [exact L|].
    assert (E : exists qs, Forall2 (mine w' a) (s_owned st) qs /\ map p_pledge qs = map p_pledge ps).
    { clear N L Hc. induction F as [|e p l ps (G1 & G2 & G3) F (qs & IH1 & IH2)]; [exists []; split; [constructor | reflexivity]|].
      destruct (H _ _ G1) as (q & Gq & (T1 & T2 & _ & T4 & _)). exists (q :: qs). split; [constructor; [|exact IH1]; split; [exact Gq | split; congruence] | cbn; congruence]. }
    destruct E as (qs & E1 & E2). exists qs. split; [exact E1|]. now rewrite E2.
  Qed.
  Lemma opt_hk w w' a x o : hk w w' -> opt_ok w a x o -> opt_ok w' a x o.
  Proof. intros H Ho st E. eapply strat_hk; [exact H | now apply Ho]. Qed.
  Lemma strat_pop w a x st k : strat_ok w a x st -> strat_ok w a x (mkStrategy (pop (s_alloc st) k) (s_owned st)).
  Proof. intros (N & L & ps & F & Hc). split; [exact N|]. split; [exact L|]. exists ps. split; [exact F | now apply C_pop]. Qed.
  Lemma agents_hk w w' : hk w w' -> w_agents w' = w_agents w -> agents_ok w -> agents_ok w'.
  Proof. intros H E Ha a ag G. rewrite E in G. destruct (Ha a ag G) as (H1 & H2 & H3 & H4). split; [exact H1|]. split; [exact H2|]. split; eapply opt_hk; eassumption. Qed.
  Lemma mine_get w a (d : dict nat) ps id r : Forall2 (mine w a) d ps -> get d id = Some r -> exists p, get (w_heap w) r = Some p /\ p_id p = id /\ p_owner p = a.
  Proof. intros F G. apply get_In in G. induction F as [|e p l ps (M1 & M2 & M3) F IH]; [contradiction|]. destruct G as [->|G]; [exists p; auto | auto]. Qed.

  (** everything but the rankings *)
  Definition frame w w' : Prop := w_heap w' = w_heap w /\ w_agents w' = w_agents w /\ w_pools w' = w_pools w /\ w_rss w' = w_rss w /\ w_next w' = w_next w /\ w_idseq w' = w_idseq w /\ w_simul w' = w_simul w.
  Lemma frame_refl w : frame w w.  Proof. repeat split. Qed.
  Lemma rank_add_frame w r w' : rank_add w r = Ok w' -> frame w w'.
  Proof. unfold rank_add. intros H. apply bind_ok in H as (p & _ & H). injection H as <-. repeat split. Qed.
  Lemma rank_remove_frame w r w' : rank_remove w r = Ok w' -> frame w w'.
  Proof. unfold rank_remove. intros H. apply bind_ok in H as (p & _ & H). apply bind_ok in H as (l & _ & H). injection H as <-. repeat split. Qed.
  Lemma rankm_add_frame w r w' : rankm_add w r = Ok w' -> frame w w'.
  Proof. unfold rankm_add. intros H. apply bind_ok in H as (p & _ & H). apply bind_ok in H as (k & _ & H). injection H as <-. repeat split. Qed.
  Lemma rankm_remove_frame w r w' : rankm_remove w r = Ok w' -> frame w w'.
  Proof. unfold rankm_remove. intros H. apply bind_ok in H as (p & _ & H). apply bind_ok in H as (k & _ & H). apply bind_ok in H as (l & _ & H). injection H as <-. repeat split. Qed.

  (** * evaluating moves *)
  Record ev w0 w : Prop := { ev_hp : hp w; ev_hk : hk w0 w; ev_agents : w_agents w = w_agents w0; ev_pools : w_pools w = w_pools w0; ev_rss : w_rss w = w_rss w0; ev_next : w_next w0 <= w_next w; ev_simul : w_simul w = w_simul w0; ev_ids : w_idseq w0 <= w_idseq w }.
  Lemma ev_refl w : hp w -> ev w w.
  Proof. intros H. constructor; auto. apply hk_refl. Qed.
  Lemma ev_trans w w1 w2 : ev w w1 -> ev w1 w2 -> ev w w2.
  Proof. intros [] []. constructor; try congruence; [eapply hk_trans; eassumption | lia | lia]. Qed.
  Lemma ev_frame w0 w w' : ev w0 w -> frame w w' -> ev w0 w'.
  Proof.
    intros [[H1 H1'] H2 H3 H4 H5 H6 H7 H8] (E1 & E2 & E3 & E4 & E5 & E6 & E7). constructor; try congruence.
    - split; intros *; rewrite ?E1, ?E5, ?E6; [apply H1 | apply H1'].
    - eapply hk_trans; [exact H2 | now apply hk_eq].
  Qed.
  Lemma hp_store w r p q : hp w -> get (w_heap w) r = Some p -> p_id q = p_id p -> p_owner q = p_owner p -> hp (store w r q).
  Proof.
    intros [H1 H2] G E1 E2.
    assert (D : forall r' q', get (w_heap (store w r q)) r' = Some q' -> exists p', get (w_heap w) r' = Some p' /\ p_id q' = p_id p' /\ p_owner q' = p_owner p').
    { intros r' q'. cbn. rewrite get_set. destruct (Nat.eqb_spec r r') as [<-|]; [intros [= <-]; exists p; auto | intros G'; exists q'; auto]. }
    split.
    - intros r' q' G'. destruct (D r' q' G') as (p' & G1 & -> & _). now apply (H1 r').
    - intros r1 r2 q1 q2 G1 G2. destruct (D _ _ G1) as (p1 & G1' & -> & ->). destruct (D _ _ G2) as (p2 & G2' & -> & ->). now apply (H2 r1 r2).
  Qed.
  Lemma ev_store w0 w r p q : ev w0 w -> get (w_heap w) r = Some p -> terms p q -> ev w0 (store w r q).
  Proof.
    intros [H1 H2 H3 H4 H5 H6 H7 H8] G Ht. constructor; try assumption; [destruct Ht as (T1 & T2 & _); eapply hp_store; eassumption|].
    intros r' p' G'. destruct (H2 r' p' G') as (q' & Gq & T'). cbn. rewrite get_set. destruct (Nat.eqb_spec r r') as [<-|]; [|eauto]. exists q. split; [reflexivity|]. eapply terms_trans; [exact T'|]. congruence.
  Qed.
  Lemma ev_store_new w0 w r p q : hp w0 -> ev w0 w -> w_next w0 <= r -> get (w_heap w) r = Some p -> p_id q = p_id p -> p_owner q = p_owner p -> ev w0 (store w r q).
  Proof.
    intros [H0 _] [H1 H2 H3 H4 H5 H6 H7 H8] L G E1 E2. constructor; try assumption; [eapply hp_store; eassumption|].
    intros r' p' G'. destruct (H2 r' p' G') as (q' & Gq & T'). cbn. rewrite get_set. destruct (Nat.eqb_spec r r') as [<-|]; [|eauto]. apply H0 in G'. lia.
  Qed.
  Lemma ev_alloc w0 w p : ev w0 w -> 1 <= p_id p <= w_idseq w -> (forall r q, get (w_heap w) r = Some q -> p_id q = p_id p -> p_owner q = p_owner p) -> ev w0 (fst (alloc w p)).
  Proof.
    intros [[H1 H1'] H2 H3 H4 H5 H6 H7 H8] L Hq. constructor; try assumption; [|intros r' p' G'; destruct (H2 r' p' G') as (q' & Gq & T'); exists q'; split; [|exact T']|cbn; lia].
    - split; cbn.
      + intros r' q'. rewrite get_set. destruct (Nat.eqb_spec (w_next w) r') as [<-|]; [intros [= <-]; lia|]. intros G. apply H1 in G. lia.
      + intros r1 r2 p1 p2. rewrite !get_set. destruct (Nat.eqb_spec (w_next w) r1) as [<-|], (Nat.eqb_spec (w_next w) r2) as [<-|]; intros G1 G2; [congruence | | | now apply (H1' r1 r2)].
        * injection G1 as <-. intros E. symmetry. eapply Hq; [exact G2 | congruence].
        * injection G2 as <-. intros E. eapply Hq; [exact G1 | congruence].
    - cbn. rewrite get_set_ne; [exact Gq|]. apply H1 in Gq. lia.
  Qed.

  Lemma touch_shape uid w id v w' : touch_delegation uid w id v = Ok w' -> exists r p w1, frame w w1 /\ get (w_heap w1) r = Some p /\ frame (store w1 r (update_delegation v uid p)) w'.
  Proof.
    intros H. unfold touch_delegation in H. apply bind_ok in H as (r & _ & H). apply bind_ok in H as (w1 & H1 & H). apply bind_ok in H as (p & H2 & H).
    exists r, p, w1. split; [now apply rankm_remove_frame in H1|]. split; [now apply of_option_ok in H2 | now apply rankm_add_frame in H].
  Qed.
  Lemma touch_ev w0 uid w id v w' : ev w0 w -> touch_delegation uid w id v = Ok w' -> ev w0 w'.
  Proof.
    intros E H. apply touch_shape in H as (r & p & w1 & F1 & G & F2). eapply ev_frame; [|exact F2]. eapply ev_store; [eapply ev_frame; eassumption | exact G | apply terms_upd].
  Qed.
  Lemma touches_ev {Y} w0 (f : world A -> Y -> res (world A)) l w w' : (forall x y x', f x y = Ok x' -> exists uid id v, touch_delegation uid x id v = Ok x') -> ev w0 w -> foldM f l w = Ok w' -> ev w0 w'.
  Proof. intros Hf E. apply foldM_inv; [exact E|]. intros x y x' _ Ex Hx. apply Hf in Hx as (uid & id & v & Hx). eapply touch_ev; eassumption. Qed.
  Lemma find_delegation_ev w0 w ag x w' st : ev w0 w -> find_delegation_move w ag x = Ok (w', st) ->
    ev w0 w' /\ s_owned st = [] /\ (s_alloc st = [] \/ ltb x min_stake_unit = false /\ exists rs el, s_alloc st = greedy_allocations rs el x).
  Proof.
    intros E H. unfold find_delegation_move in H. destruct (ltb x min_stake_unit) eqn:L; [injection H as <- <-; split; [exact E | split; [reflexivity | now left]]|].
    apply bind_ok in H as ([w1 d] & H1 & H). injection H as <- <-. cbn [s_owned s_alloc]. unfold stake_allocations in H1. apply bind_ok in H1 as (rk & _ & H1). apply bind_ok in H1 as (el & _ & H1).
    destruct el as [|e el]; [injection H1 as <- <-; split; [exact E | split; [reflexivity | now left]]|].
    apply bind_ok in H1 as (st & Hst & H1). apply bind_ok in H1 as (w2 & H2 & H1). apply bind_ok in H1 as (pools & _ & H1). apply bind_ok in H1 as (w3 & H3 & H1). injection H1 as <- <-.
    split; [|split; [reflexivity | right; split; [reflexivity | eauto]]]. eapply touches_ev; [|eapply touches_ev; [|exact E | exact H2]|exact H3]; intros y z y' J; cbn beta in J; eauto.
  Qed.

  (** the copies of the pools an operator keeps *)
  Definition fresh_own w0 w a (d : dict nat) : Prop := NoDup (keys d) /\ forall id r, In (id, r) d -> w_next w0 <= r /\ exists p, get (w_heap w) r = Some p /\ p_id p = id /\ p_owner p = a.
  Lemma In_set {V} (d : dict V) k v k' v' : In (k', v') (set d k v) -> (k' = k /\ v' = v) \/ In (k', v') d.
  Proof.
    induction d as [|[j x] d IH]; cbn; [intros [[= <- <-]|[]]; auto|]. destruct (Nat.eqb_spec k j) as [->|N]; cbn; intros [E|E]; auto; [injection E as <- <-; auto|]. apply IH in E. tauto.
  Qed.
  Lemma set_length {V} (d : dict V) k v : length (set d k v) <= S (length d).
  Proof. induction d as [|[j x] d IH]; cbn; [lia|]. destruct (Nat.eqb k j); cbn; lia. Qed.
  Definition known w0 (old : list nat) (d : dict nat) : Prop := forall id, In id (keys d) -> In id old \/ w_idseq w0 < id.
  Lemma copy_all_ev w0 a l : (forall id r, In (id, r) l -> exists p, get (w_heap w0) r = Some p /\ p_id p = id /\ p_owner p = a) -> forall w (d : dict nat) w' d', ev w0 w -> fresh_own w0 w a d ->
    foldM (fun acc e => let '(w, d) := acc in let '(id, r) := e in let! wr := deepcopy w r in let '(w', r') := wr in Ok (w', set d id r')) l (w, d) = Ok (w', d') ->
    ev w0 w' /\ fresh_own w0 w' a d' /\ length d' <= length d + length l /\ forall id, In id (keys d') -> In id (keys d) \/ In id (map fst l).
  Proof.
    intros Hl. induction l as [|[id r] l IH]; intros w d w' d' E Fo H; cbn -[deepcopy] in H; [injection H as <- <-; split; [exact E|]; split; [exact Fo | split; [cbn; lia | auto]]|].
    apply bind_ok in H as ([w1 d1] & H1 & H). apply bind_ok in H1 as ([w2 r2] & H2 & H1). injection H1 as <- <-. unfold deepcopy in H2. apply bind_ok in H2 as (p & Hp & H2). apply of_option_ok in Hp.
    change (alloc w p) with (fst (alloc w p), w_next w) in H2. injection H2 as <- <-.
    destruct (Hl id r (or_introl eq_refl)) as (p0 & G0 & I0 & O0). destruct (ev_hk _ _ E r p0 G0) as (p' & Gp & (T1 & T2 & _)). rewrite Hp in Gp. injection Gp as <-.
    assert (E' : ev w0 (fst (alloc w p))).
    { apply ev_alloc; [exact E | exact (proj2 (proj1 (ev_hp _ _ E) r p Hp))|]. intros r' q G' Ei. exact (proj2 (ev_hp _ _ E) r' r q p G' Hp Ei). }
    destruct (IH (fun i x J => Hl i x (or_intror J)) (fst (alloc w p)) (set d id (w_next w)) w' d' E') as (R1 & R2 & R3 & R4); [|exact H|].
    - destruct Fo as [N Fo]. split; [now apply NoDup_set|]. intros i x J. apply In_set in J as [[-> ->]|J].
      + split; [exact (ev_next _ _ E)|]. exists p. cbn. rewrite get_set_eq. split; [reflexivity|]. split; congruence.
      + destruct (Fo i x J) as (L & q & Gq & Iq & Oq). split; [exact L|]. exists q. cbn. rewrite get_set_ne; [auto|]. apply (proj1 (ev_hp _ _ E)) in Gq. lia.
    - split; [exact R1|]. split; [exact R2|]. assert (L := set_length d id (w_next w)). split; [cbn [length]; lia|]. intros i J. apply R4 in J as [J|J]; [|right; now right]. apply get_Some_key in J as (v & J). rewrite get_set in J. destruct (Nat.eqb_spec id i) as [<-|]; [right; now left | left; apply get_Some_key; eauto].
  Qed.
  Lemma nlargest_length n l : length (nlargest (A := A) n l) <= n.
  Proof. unfold nlargest. apply firstn_le_length. Qed.
  Lemma pools_to_keep_ev w0 w ag n w' d x : ev w0 w -> opt_ok w0 (a_id ag) x (a_strategy ag) -> pools_to_keep so w ag n = Ok (w', d) ->
    ev w0 w' /\ fresh_own w0 w' (a_id ag) d /\ (Z.of_nat (length d) <= n \/ n < 0)%Z /\ forall st, a_strategy ag = Some st -> known w0 (keys (s_owned st)) d.
  Proof.
    intros E Ho H. unfold pools_to_keep in H. apply bind_ok in H as (st & Hst & H). unfold the_strategy in Hst. apply of_option_ok in Hst. destruct (Ho st Hst) as (N & L & ps & F & _).
    assert (Hown : forall id r, get (s_owned st) id = Some r -> exists p, get (w_heap w0) r = Some p /\ p_id p = id /\ p_owner p = a_id ag) by (intros id r G; eapply mine_get; eassumption).
    assert (F0 : fresh_own w0 w (a_id ag) []) by (split; [constructor | intros ? ? []]).
    destruct (Z.ltb_spec n (Z.of_nat (length (s_owned st)))) as [Ln|Ln].
    - apply bind_ok in H as (props & _ & H). apply bind_ok in H as (todo & Ht & H). destruct (copy_all_ev w0 (a_id ag) todo) with (3 := F0) (4 := H) as (R1 & R2 & R3 & R4); [|exact E|].
      + intros id r J. assert (M := proj1 (mapM_ok _ _ _) Ht). clear - M J Hown. induction M as [|y z l l' Hy M IH]; [contradiction|]. destruct J as [->|J]; [|auto]. apply bind_ok in Hy as (r' & Hr & Hy). apply of_option_ok in Hr. injection Hy as -> ->. auto.
      + split; [exact R1|]. split; [exact R2|]. split; [|intros st' Es; rewrite Hst in Es; injection Es as <-; intros id J; left; apply R4 in J as [[]|J]; apply in_map_iff in J as ([i r] & <- & J);
          assert (M := proj1 (mapM_ok _ _ _) Ht); clear - M J; induction M as [|y z l l' Hy M IH]; [contradiction|]; destruct J as [->|J]; [|auto]; apply bind_ok in Hy as (r' & Hr & Hy); apply of_option_ok in Hr; injection Hy as -> ->; cbn; apply get_Some_key; eauto].
        cbn [length] in R3. apply mapM_length in Ht. rewrite Ht, (Permutation_length (so_perm _ _)), map_length in R3. assert (B := nlargest_length (Z.to_nat n) props). destruct (Z.lt_ge_cases n 0) as [|Ge]; [now right|left]. assert (B2 : length d <= Z.to_nat n) by (eapply Nat.le_trans; [exact R3 | exact B]). clear - B2 Ge. lia.
    - destruct (copy_all_ev w0 (a_id ag) (s_owned st)) with (3 := F0) (4 := H) as (R1 & R2 & R3 & R4); [|exact E|split; [exact R1 | split; [exact R2 | split; [cbn in R3; lia | intros st' Es; rewrite Hst in Es; injection Es as <-; intros id J; left; now apply R4 in J as [[]|J]]]]].
      intros id r J. apply Hown. now apply In_get.
  Qed.

  (** pools a move would operate: first the copies, then the new ones *)
  Definition priced w (P : num) (l : list (nat * nat)) : Prop := forall id r, In (id, r) l -> exists p, get (w_heap w) r = Some p /\ p_pledge p = P.
  Lemma fresh_own_hk w0 w w' a d : hk w w' -> fresh_own w0 w a d -> fresh_own w0 w' a d.
  Proof. intros H [N F]. split; [exact N|]. intros id r J. destruct (F id r J) as (L & p & G & I & Ow). destruct (H r p G) as (q & Gq & (T1 & T2 & _)). split; [exact L|]. exists q. split; [exact Gq|]. split; congruence. Qed.
  Lemma priced_hk w w' P l : hk w w' -> priced w P l -> priced w' P l.
  Proof. intros H F id r J. destruct (F id r J) as (p & G & E). destruct (H r p G) as (q & Gq & (_ & _ & _ & T4 & _)). exists q. split; [exact Gq | congruence]. Qed.
  Lemma adjust_loop w0 ag pledge cost margins : hp w0 -> forall todo done w i w' j, ev w0 w -> fresh_own w0 w (a_id ag) (done ++ todo) -> priced w pledge done ->
    foldM (fun acc e => let '(w, i) := acc in let! p := deref w (snd e) in let! p' := adjust_pool w ag pledge cost margins i p in Ok (store w (snd e) p', S i)) todo (w, i) = Ok (w', j) ->
    ev w0 w' /\ fresh_own w0 w' (a_id ag) (done ++ todo) /\ priced w' pledge (done ++ todo).
  Proof.
    intros H0. induction todo as [|[id r] todo IH]; intros done w i w' j E Fo Pr H; cbn -[adjust_pool] in H.
    - injection H as <- _. rewrite app_nil_r in *. auto.
    - apply bind_ok in H as ([w1 i1] & H1 & H). apply bind_ok in H1 as (p & Hp & H1). apply bind_ok in H1 as (p' & Hp' & H1). injection H1 as <- <-. apply of_option_ok in Hp.
      assert (A1 : p_id p' = p_id p /\ p_owner p' = p_owner p /\ p_pledge p' = pledge).
      { unfold adjust_pool in Hp'. apply bind_ok in Hp' as (p2 & Hp2 & Hp'). apply bind_ok in Hp' as (mg & _ & Hp'). injection Hp' as <-. unfold pool_set_profit in Hp2. apply bind_ok in Hp2 as (pp & _ & Hp2). injection Hp2 as <-. repeat split. }
      destruct A1 as (A1 & A2 & A3). destruct Fo as [N Fo]. assert (J : In (id, r) (done ++ (id, r) :: todo)) by (apply in_app_iff; right; now left).
      destruct (Fo id r J) as (L & q & Gq & Iq & Oq). rewrite Hp in Gq. injection Gq as <-.
      assert (E' : ev w0 (store w r p')) by (eapply ev_store_new; eassumption).
      replace (done ++ (id, r) :: todo) with ((done ++ [(id, r)]) ++ todo) in * by (now rewrite <- app_assoc).
      apply (IH (done ++ [(id, r)]) (store w r p') (S i) w' j); [exact E' | | | exact H].
      + split; [exact N|]. intros id1 r1 J1. destruct (Fo id1 r1 J1) as (L1 & q1 & G1 & I1 & O1). split; [exact L1|]. cbn. rewrite get_set. destruct (Nat.eqb_spec r r1) as [<-|]; [|eauto].
        rewrite Hp in G1. injection G1 as <-. exists p'. split; [reflexivity|]. split; congruence.
      + intros id1 r1 J1. cbn. rewrite get_set. destruct (Nat.eqb_spec r r1) as [<-|Ne]; [exists p'; now split|]. apply in_app_iff in J1 as [J1|[J1|[]]]; [exact (Pr id1 r1 J1) | congruence].
  Qed.
  Lemma set_new_eq {V} (d : dict V) k v : ~ In k (keys d) -> set d k v = d ++ [(k, v)].
  Proof. induction d as [|[j x] d IH]; cbn; [reflexivity|]. intros H. destruct (Nat.eqb_spec k j); [exfalso; apply H; now left|]. f_equal. apply IH. tauto. Qed.
  Lemma draft_loop w0 ag pledge cost margins : forall is w d w' d', ev w0 w -> fresh_own w0 w (a_id ag) d -> priced w pledge d ->
    foldM (fun acc i => let '(w, d) := acc in let '(w', id) := next_pool_id w in let! p := draft_pool w' ag pledge cost margins i id in let '(w'', r) := alloc w' p in Ok (w'', set d id r)) is (w, d) = Ok (w', d') ->
    ev w0 w' /\ fresh_own w0 w' (a_id ag) d' /\ priced w' pledge d' /\ length d' = length d + length is /\ forall old, known w0 old d -> known w0 old d'.
  Proof.
    induction is as [|i is IH]; intros w d w' d' E Fo Pr H; cbn -[draft_pool next_pool_id alloc] in H; [injection H as <- <-; rewrite Nat.add_0_r; auto|].
    apply bind_ok in H as ([w1 d1] & H1 & H). unfold next_pool_id in H1. cbv beta iota zeta in H1. apply bind_ok in H1 as (p & Hp & H1).
    set (w2 := with_idseq (S (w_idseq w)) w) in *. change (alloc w2 p) with (fst (alloc w2 p), w_next w2) in H1. injection H1 as <- <-.
    assert (A1 : p_id p = S (w_idseq w) /\ p_owner p = a_id ag /\ p_pledge p = pledge).
    { unfold draft_pool in Hp. apply bind_ok in Hp as (p2 & Hp2 & Hp). apply bind_ok in Hp as (mg & _ & Hp). injection Hp as <-. unfold new_pool in Hp2. apply bind_ok in Hp2 as (pp & _ & Hp2). injection Hp2 as <-. repeat split. }
    destruct A1 as (A1 & A2 & A3).
    assert (E2 : ev w0 w2). { destruct E as [[B1 B1'] B2 B3 B4 B5 B6 B7 B8]. constructor; try assumption; [|unfold w2; cbn; lia]. split; [|exact B1']. intros r q G. apply B1 in G. unfold w2. cbn. lia. }
    assert (Nw : forall r q, get (w_heap w2) r = Some q -> p_id q <> p_id p). { intros r q G. apply (proj1 (ev_hp _ _ E)) in G. lia. }
    assert (E' : ev w0 (fst (alloc w2 p))). { apply ev_alloc; [exact E2 | unfold w2; cbn; lia|]. intros r q G Eq. exfalso. exact (Nw r q G Eq). }
    assert (Nk : ~ In (S (w_idseq w)) (keys d)). { intros J. apply get_Some_key in J as (r & J). apply get_In in J. destruct (proj2 Fo _ _ J) as (_ & q & Gq & Iq & _). apply (Nw r q Gq). congruence. }
    rewrite (set_new_eq d _ _ Nk) in H.
    assert (G' : forall r q, get (w_heap w) r = Some q -> get (w_heap (fst (alloc w2 p))) r = Some q). { intros r q G. cbn. rewrite get_set_ne; [exact G|]. apply (proj1 (ev_hp _ _ E)) in G. lia. }
    destruct (IH (fst (alloc w2 p)) (d ++ [(S (w_idseq w), w_next w2)]) w' d' E') as (R1 & R2 & R3 & R4 & R5); [| | exact H |].
    - destruct Fo as [N Fo]. split; [rewrite <- (set_new_eq d _ (w_next w2) Nk); now apply NoDup_set|]. intros id r J. apply in_app_iff in J as [J|[J|[]]].
      + destruct (Fo id r J) as (L & q & Gq & Iq & Oq). split; [exact L|]. exists q. auto.
      + injection J as <- <-. split; [exact (ev_next _ _ E)|]. exists p. split; [cbn; now rewrite get_set_eq | now split].
    - intros id r J. apply in_app_iff in J as [J|[J|[]]]; [destruct (Pr id r J) as (q & Gq & Eq); exists q; auto|]. injection J as <- <-. exists p. split; [cbn; now rewrite get_set_eq | exact A3].
    - split; [exact R1|]. split; [exact R2|]. split; [exact R3|]. split; [rewrite R4, app_length; cbn; lia|]. intros old Kn. apply R5. intros id J. unfold keys in J. rewrite map_app in J. apply in_app_iff in J as [J|[J|[]]]; [now apply Kn|]. cbn in J. right. assert (L := ev_ids _ _ E). lia.
  Qed.
  Lemma priced_list w a (d : dict nat) P : (forall id r, In (id, r) d -> exists p, get (w_heap w) r = Some p /\ p_id p = id /\ p_owner p = a) -> priced w P d ->
    exists ps, Forall2 (mine w a) d ps /\ map p_pledge ps = repeat P (length d).
  Proof.
    induction d as [|[id r] d IH]; intros H Pr; [exists []; split; [constructor | reflexivity]|].
    destruct IH as (ps & I1 & I2); [intros; apply H; now right | intros i x J; apply (Pr i x); now right|]. destruct (H id r (or_introl eq_refl)) as (p & G & Ip & Op). destruct (Pr id r (or_introl eq_refl)) as (p' & G' & Ep).
    rewrite G in G'. injection G' as <-. exists (p :: ps). split; [constructor; [now split | exact I1] | cbn; congruence].
  Qed.
  Lemma operator_move_ev w0 w ag n d margins w' st : hp w0 -> ST (a_stake ag) -> (1 <= n)%Z -> K (Z.to_nat n) -> ev w0 w -> fresh_own w0 w (a_id ag) d -> (Z.of_nat (length d) <= n)%Z ->
    find_operator_move w ag n d margins = Ok (w', st) -> ev w0 w' /\ strat_ok w' (a_id ag) (a_stake ag) st /\ forall old, known w0 old d -> known w0 old (s_owned st).
  Proof.
    intros H0 Hs Hn HK E Fo Ln H. unfold find_operator_move in H. apply bind_ok in H as (pledge & Hpl & H). apply bind_ok in H as (cost & _ & H).
    apply bind_ok in H as ([w1 i1] & H1 & H). apply bind_ok in H as ([w2 o2] & H2 & H). apply bind_ok in H as ([w3 d3] & H3 & H). injection H as <- <-. cbn [fst] in H2.
    destruct (adjust_loop w0 ag pledge cost margins H0 d [] w 0 w1 i1 E Fo) with (2 := H1) as (E1 & Fo1 & Pr1); [intros ? ? []|]. cbn [app] in Fo1, Pr1.
    destruct (draft_loop w0 ag pledge cost margins _ w1 d w2 o2 E1 Fo1 Pr1 H2) as (E2 & Fo2 & Pr2 & L2 & Kn2). rewrite seq_length in L2. assert (L3 : length o2 = Z.to_nat n) by lia.
    assert (Q : ev w2 w3 /\ (d3 = [] \/ (ltb zero (sub (a_stake ag) (mul pledge (ofZ n))) = true /\ ltb (sub (a_stake ag) (mul pledge (ofZ n))) min_stake_unit = false /\
                  exists rs el, d3 = greedy_allocations rs el (sub (a_stake ag) (mul pledge (ofZ n)))))).
    { unfold find_delegation_for_operator in H3. destruct (ltb _ _) eqn:Lt; [|injection H3 as <- <-; split; [apply ev_refl, E2 | now left]].
      apply bind_ok in H3 as ([w4 s4] & H4 & H3). injection H3 as <- <-. destruct (find_delegation_ev w2 w2 ag _ w4 s4 (ev_refl _ (ev_hp _ _ E2)) H4) as (E4 & _ & [D|(D1 & D2)]); split; auto. }
    destruct Q as [E3 Q]. split; [eapply ev_trans; eassumption|]. split; [|exact Kn2]. apply (fresh_own_hk _ _ _ _ _ (ev_hk _ _ E3)) in Fo2. apply (priced_hk _ _ _ _ (ev_hk _ _ E3)) in Pr2. cbn [s_owned s_alloc].
    split; [apply Fo2|]. cbn [s_owned s_alloc]. split; [now rewrite L3|]. destruct (priced_list w3 (a_id ag) o2 pledge) as (ps & F & Eps); [intros id r J; now apply Fo2 | exact Pr2|].
    exists ps. split; [exact F|]. rewrite Eps, L3. unfold agent_pledge_per_pool in Hpl. destruct Q as [->|(Q1 & Q2 & rs & el & ->)]; [eapply C_op; [exact Hs | exact Hn | exact Hpl | now left]|].
    eapply C_op; [exact Hs | exact Hn | exact Hpl | right; auto].
    Unshelve. all: try exact (w_rss w0); exact [].
  Qed.
  Lemma search_ge {X} (f : Z -> res (X * num)) : forall fuel lo hi t x, (lo <= hi)%Z -> search f fuel lo hi = Ok (t, x) -> (lo <= t <= hi)%Z.
  Proof.
    induction fuel as [|fuel IH]; intros lo hi t x L H; cbn -[Z.div] in H; [discriminate|]. set (mid := ((lo + hi) / 2)%Z) in *.
    assert (B : (lo <= mid <= hi)%Z) by (unfold mid; split; [apply Z.div_le_lower_bound; lia | apply Z.div_le_upper_bound; lia]).
    apply bind_ok in H as (xu & _ & H).
    assert (P : forall r : res (Z * X), r = (if (mid <? hi)%Z then let! xp := f (mid + 1)%Z in if ltb (snd xu) (snd xp) then search f fuel (mid + 1)%Z hi else Ok (mid, fst xu) else Ok (mid, fst xu)) -> r = Ok (t, x) -> (lo <= t <= hi)%Z).
    { intros r -> Hr. destruct (Z.ltb_spec mid hi); [|injection Hr as <- <-; exact B]. apply bind_ok in Hr as (xp & _ & Hr). destruct (ltb (snd xu) (snd xp)); [|injection Hr as <- <-; exact B]. apply IH in Hr; lia. }
    destruct (Z.ltb_spec lo mid); [|exact (P _ eq_refl H)]. apply bind_ok in H as (xm & _ & H). destruct (ltb (snd xu) (snd xm)); [apply IH in H; lia | exact (P _ eq_refl H)].
  Qed.
  Lemma choose_ev w0 w ag w' u o : hp w0 -> ST (a_stake ag) -> (forall n, n <= Z.to_nat (r_k (w_rss w0)) -> K n) -> ev w0 w -> opt_ok w0 (a_id ag) (a_stake ag) (a_strategy ag) -> choose_pool_strategy so w ag = Ok (w', u, o) ->
    ev w0 w' /\ opt_ok w' (a_id ag) (a_stake ag) o /\ forall old st, a_strategy ag = Some old -> o = Some st -> known w0 (keys (s_owned old)) (s_owned st).
  Proof.
    intros H0 Hs HK E Ho H. unfold choose_pool_strategy in H. apply bind_ok in H as ([t margins] & Ht & H). destruct (Z.ltb_spec 0 t) as [Lt|]; [|injection H as <- _ <-; split; [exact E | split; discriminate]].
    apply bind_ok in H as ([w1 d1] & H1 & H). apply bind_ok in H as ([w2 st] & H2 & H). apply bind_ok in H as (x & _ & H). injection H as <- _ <-.
    destruct (pools_to_keep_ev w0 w ag t w1 d1 _ E Ho H1) as (E1 & F1 & L1 & Kn1). rewrite (ev_rss _ _ E) in Ht.
    assert (Lk : (t <= r_k (w_rss w0))%Z).
    { destruct (Z.le_gt_cases 1 (r_k (w_rss w0))) as [L|L]; [apply search_ge in Ht; lia|].
      exfalso. revert Ht. generalize (search_fuel (r_k (w_rss w0))). intros [|fuel] Ht; [discriminate|]. cbn -[Z.div Z.add Z.sub Z.ltb] in Ht.
      assert (B : ((1 + r_k (w_rss w0)) / 2 <= 0)%Z) by (apply Z.lt_succ_r, Z.div_lt_upper_bound; lia).
      assert (B' : (r_k (w_rss w0) <= (1 + r_k (w_rss w0)) / 2)%Z) by (apply Z.div_le_lower_bound; lia).
      apply bind_ok in Ht as (xu & _ & Ht). destruct (Z.ltb_spec 1 ((1 + r_k (w_rss w0)) / 2)) as [|_]; [lia|].
      destruct (Z.ltb_spec ((1 + r_k (w_rss w0)) / 2) (r_k (w_rss w0))) as [M|_]; [lia|]. injection Ht as Et _. rewrite <- Et in Lt. exact (Zlt_not_le _ _ Lt B). }
    destruct (operator_move_ev w0 w1 ag t d1 margins w2 st H0 Hs) with (6 := H2) as (E2 & S2 & Kn2); try assumption; [lia | apply HK; lia | lia | split; [exact E2 | split; [intros st' [= <-]; exact S2 | intros old st' Eo [= <-]; apply Kn2; now apply Kn1]]].
  Qed.

  (** * deciding on a move *)
  Lemma the_agent_get w a ag : the_agent w a = Ok ag -> get (w_agents w) a = Some ag.
  Proof. unfold the_agent. apply of_option_ok. Qed.
  Lemma hp_same w w' : w_heap w' = w_heap w -> w_next w' = w_next w -> w_idseq w' = w_idseq w -> hp w -> hp w'.
  Proof. intros E1 E2 E3 [H1 H2]. split; intros *; rewrite ?E1, ?E2, ?E3; [apply H1 | apply H2]. Qed.
  Lemma book_put w a ag : book w -> a_id ag = a -> ST (a_stake ag) -> opt_ok w a (a_stake ag) (a_strategy ag) -> opt_ok w a (a_stake ag) (a_new ag) -> book (put_agent w a ag).
  Proof.
    intros [H1 H2] E1 E2 E3 E4. split; [exact (hp_same w _ eq_refl eq_refl eq_refl H1)|]. intros b bg G. cbn in G. rewrite get_set in G. destruct (Nat.eqb_spec a b) as [<-|]; [injection G as <-; auto | exact (H2 b bg G)].
  Qed.
  Definition reg w : Prop := NoDup (keys (w_pools w)) /\ forall id r, get (w_pools w) id = Some r <-> exists a ag st, get (w_agents w) a = Some ag /\ a_strategy ag = Some st /\ get (s_owned st) id = Some r.
  Definition full w : Prop := book w /\ reg w.
  (** ids which are in use, prepared, or used up for ever *)
  Definition pending w id : Prop := exists a ag st, get (w_agents w) a = Some ag /\ a_new ag = Some st /\ In id (keys (s_owned st)).
  Definition gone w id : Prop := id <= w_idseq w /\ ~ In id (keys (w_pools w)) /\ ~ pending w id.
  Definition nx w w' : Prop := hk w w' /\ w_idseq w <= w_idseq w' /\ (forall id, In id (keys (w_pools w)) -> In id (keys (w_pools w')) \/ gone w' id) /\ (forall id, gone w id -> gone w' id).
  Lemma nx_refl w : nx w w.  Proof. split; [apply hk_refl|]. split; [lia|]. split; auto. Qed.
  Lemma nx_trans w w1 w2 : nx w w1 -> nx w1 w2 -> nx w w2.
  Proof. intros (A1 & A2 & A3 & A4) (B1 & B2 & B3 & B4). split; [eapply hk_trans; eassumption|]. split; [lia|]. split; [|auto]. intros id J. destruct (A3 id J) as [J1|J1]; auto. Qed.
  Lemma nx_same w w' : hk w w' -> w_agents w' = w_agents w -> w_pools w' = w_pools w -> w_idseq w' = w_idseq w -> nx w w'.
  Proof. intros H E1 E2 E3. split; [exact H|]. split; [lia|]. unfold gone, pending. rewrite E1, E2, E3. split; auto. Qed.
  Lemma update_full w uid w' : (forall n, n <= Z.to_nat (r_k (w_rss w)) -> K n) -> full w -> update_strategy so w uid = Ok w' -> full w' /\ nx w w' /\ w_rss w' = w_rss w.
  Proof.
    intros HK [[H1 H2] Hr] H. unfold update_strategy in H. apply bind_ok in H as (ag & Hag & H). apply the_agent_get in Hag. destruct (H2 _ _ Hag) as (I1 & I2 & I3 & I4).
    assert (Q : w' = w \/ exists cu eu w1 del du w2 ou op, find_delegation_move w ag (a_stake ag) = Ok (w1, del) /\ choose_pool_strategy so w1 ag = Ok (w2, ou, op) /\
                w' = put_agent w2 uid (agent_set_new (pick_move (augmented_utility w cu eu) (du, del) (ou, op)) ag)).
    { destruct (a_profile ag) eqn:Ep; [right|right|left; now injection H as <-];
        (apply bind_ok in H as (st & _ & H); apply bind_ok in H as (cu & _ & H); apply bind_ok in H as (eu & _ & H); apply bind_ok in H as ((w1, del) & H3 & H);
         apply bind_ok in H as (du & _ & H); apply bind_ok in H as (((w2, ou), op) & H4 & H); injection H as <-; exists cu, eu, w1, del, du, w2, ou, op; auto). }
    destruct Q as [->|(cu & eu & w1 & del & du & w2 & ou & op & H3 & H4 & ->)]; [split; [split; [now split | exact Hr] | split; [apply nx_refl | reflexivity]]|].
    destruct (find_delegation_ev w w ag _ w1 del (ev_refl _ H1) H3) as (E1 & D1 & D2). rewrite <- I1 in I3.
    destruct (choose_ev w w1 ag w2 ou op H1 I2 HK E1 I3 H4) as (E2 & O2 & Kn). rewrite I1 in *.
    assert (Sd : strat_ok w2 uid (a_stake ag) del).
    { split; [rewrite D1; constructor|]. split; [rewrite D1; exact K_nil|]. exists []. rewrite D1. split; [constructor|]. destruct D2 as [->|(L & rs & el & ->)]; [now apply C_nil | now apply C_del]. }
    assert (B2 : book w2) by (split; [exact (ev_hp _ _ E2) | exact (agents_hk w w2 (ev_hk _ _ E2) (ev_agents _ _ E2) H2)]).
    assert (Sub : forall st, pick_move (augmented_utility w cu eu) (du, del) (ou, op) = Some st -> st = del \/ op = Some st).
    { intros st Est. unfold pick_move in Est. cbn [fst snd] in Est. destruct op as [s|].
      - match type of Est with (if ?b then _ else _) = _ => destruct b end; [now right|]. destruct (ltb _ du); cbn in Est; [left; congruence | discriminate].
      - destruct (ltb _ du); cbn in Est; [left; congruence | discriminate]. }
    split; [split|split; [|exact (ev_rss _ _ E2)]].
    - apply book_put; cbn [agent_set_new a_id a_stake a_strategy a_new]; [exact B2 | exact I1 | exact I2 | exact (opt_hk _ _ _ _ _ (ev_hk _ _ E2) I3)|].
      intros st Est. destruct (Sub st Est) as [->|Eo]; [exact Sd | exact (O2 st Eo)].
    - destruct Hr as [N Hr]. split; cbn [w_pools put_agent with_agents]; rewrite (ev_pools _ _ E2); [exact N|]. intros id r. rewrite Hr. cbn [w_agents put_agent with_agents]. rewrite (ev_agents _ _ E2). split; intros (b & bg & st & G1 & G2 & G3).
      + exists b. rewrite get_set. destruct (Nat.eqb_spec uid b) as [<-|]; [|eauto]. rewrite Hag in G1. injection G1 as <-. eauto.
      + rewrite get_set in G1. destruct (Nat.eqb_spec uid b) as [<-|]; [|exists b, bg, st; auto]. injection G1 as <-. cbn in G2. exists uid, ag, st. auto.
    - split; [exact (ev_hk _ _ E2)|]. split; [exact (ev_ids _ _ E2)|]. split; [intros id J; left; cbn [w_pools put_agent with_agents]; now rewrite (ev_pools _ _ E2)|].
      intros id (L & Np & Nn). split; [cbn; assert (L2 := ev_ids _ _ E2); lia|]. split; [cbn [w_pools put_agent with_agents]; now rewrite (ev_pools _ _ E2)|].
      intros (b & bg & st & G1 & G2 & G3). cbn [w_agents put_agent with_agents] in G1. rewrite (ev_agents _ _ E2), get_set in G1. destruct (Nat.eqb_spec uid b) as [<-|Ne]; [|apply Nn; exists b, bg, st; auto].
      injection G1 as <-. cbn [agent_set_new a_new] in G2. destruct (Sub st G2) as [->|Eo]; [rewrite D1 in G3; contradiction|].
      destruct (a_strategy ag) as [old|] eqn:Es; [|unfold choose_pool_strategy in H4].
      + destruct (Kn old st eq_refl Eo id G3) as [J|J]; [|lia]. apply Np. apply get_Some_key in J as (r & J). apply get_Some_key. exists r. apply Hr. exists uid, ag, old. auto.
      + apply bind_ok in H4 as ([t margins] & _ & H4). destruct (0 <? t)%Z; [|injection H4 as _ _ H4; congruence]. apply bind_ok in H4 as ([w3 d3] & H5 & _). unfold pools_to_keep, the_strategy in H5. rewrite Es in H5. discriminate.
  Qed.

  (** * carrying out a move *)
  Definition owns ag : option (dict nat) * option (dict nat) * num := (option_map (@s_owned A) (a_strategy ag), option_map (@s_owned A) (a_new ag), a_stake ag).
  Record ex w0 w : Prop := { ex_book : book w; ex_hk : hk w0 w; ex_owns : forall a, option_map owns (get (w_agents w) a) = option_map owns (get (w_agents w0) a); ex_rss : w_rss w = w_rss w0; ex_ids : w_idseq w = w_idseq w0 }.
  Lemma ex_refl w : book w -> ex w w.
  Proof. intros H. constructor; auto. apply hk_refl. Qed.
  Lemma ex_trans w w1 w2 : ex w w1 -> ex w1 w2 -> ex w w2.
  Proof. intros [] []. constructor; try congruence. eapply hk_trans; eassumption. Qed.
  Lemma ex_same w0 w w' : ex w0 w -> w_heap w' = w_heap w -> w_agents w' = w_agents w -> w_rss w' = w_rss w -> w_next w' = w_next w -> w_idseq w' = w_idseq w -> ex w0 w'.
  Proof.
    intros [[H1 H2] H3 H4 H5 H6] E1 E2 E3 E4 E5. assert (Hk : hk w w') by now apply hk_eq. constructor; try congruence.
    - split; [exact (hp_same w w' E1 E4 E5 H1) | exact (agents_hk w w' Hk E2 H2)].
    - eapply hk_trans; eassumption.
  Qed.
  Lemma ex_frame w0 w w' : ex w0 w -> frame w w' -> ex w0 w'.
  Proof. intros E (F1 & F2 & F3 & F4 & F5 & F6 & F7). eapply ex_same; eassumption. Qed.
  Lemma ex_store w0 w r p q : ex w0 w -> get (w_heap w) r = Some p -> terms p q -> ex w0 (store w r q).
  Proof.
    intros [[H1 H2] H3 H4 H5 H6] G Ht. assert (Hk : hk w (store w r q)).
    { intros r' p' G'. cbn. rewrite get_set. destruct (Nat.eqb_spec r r') as [<-|]; [|exists p'; split; [exact G' | apply terms_refl]]. exists q. split; [reflexivity | congruence]. }
    constructor; try assumption; [|eapply hk_trans; eassumption]. split; [destruct Ht as (T1 & T2 & _); eapply hp_store; eassumption | exact (agents_hk w _ Hk eq_refl H2)].
  Qed.
  Lemma touch_ex w0 uid w id v w' : ex w0 w -> touch_delegation uid w id v = Ok w' -> ex w0 w' /\ w_pools w' = w_pools w.
  Proof.
    intros E H. apply touch_shape in H as (r & p & w1 & F1 & G & F2). split; [eapply ex_frame; [|exact F2]; eapply ex_store; [eapply ex_frame; eassumption | exact G | apply terms_upd]|].
    destruct F1 as (_ & _ & F1 & _). destruct F2 as (_ & _ & F2 & _). rewrite F2. exact F1.
  Qed.
  Lemma touches_ex {Y} uid (f : Y -> nat) (g : Y -> num) w0 : forall l w w', ex w0 w -> foldM (fun w e => touch_delegation uid w (f e) (g e)) l w = Ok w' -> ex w0 w' /\ w_pools w' = w_pools w.
  Proof.
    induction l as [|y l IH]; intros w w' E H; cbn -[touch_delegation] in H; [injection H as <-; now split|]. apply bind_ok in H as (w1 & H1 & H). apply (touch_ex w0) in H1 as [E1 P1]; [|exact E].
    destruct (IH _ _ E1 H) as [E2 P2]. split; [exact E2 | congruence].
  Qed.
  Lemma remove_one_ex w0 r id w a w' : ex w0 w -> remove_one_delegation r id w a = Ok w' -> ex w0 w' /\ w_pools w' = w_pools w.
  Proof.
    intros E H. unfold remove_one_delegation in H. apply bind_ok in H as (ag & Hag & H). apply bind_ok in H as (st & Hst & H). apply bind_ok in H as (x & _ & H). apply bind_ok in H as (p & Hp & H). injection H as <-.
    apply the_agent_get in Hag. unfold the_strategy in Hst. apply of_option_ok in Hst. apply of_option_ok in Hp. split; [|reflexivity]. eapply ex_store; [|exact Hp | apply terms_upd].
    destruct E as [[H1 H2] H3 H4 H5 H6]. destruct (H2 _ _ Hag) as (I1 & I2 & I3 & I4). constructor; try assumption.
    - apply book_put; cbn [agent_set_strategy a_id a_stake a_strategy a_new]; [now split | exact I1 | exact I2 | | exact I4]. intros st' [= <-]. apply strat_pop. now apply I3.
    - intros b. cbn. rewrite get_set. destruct (Nat.eqb_spec a b) as [<-|]; [|apply H4]. rewrite <- H4, Hag. unfold owns. cbn. now rewrite Hst.
  Qed.
  Lemma remove_delegations_ex w0 w r w' : ex w0 w -> remove_delegations w r = Ok w' -> ex w0 w' /\ w_pools w' = w_pools w.
  Proof.
    intros E H. unfold remove_delegations in H. apply bind_ok in H as (p & _ & H). apply bind_ok in H as (w1 & H1 & H). injection H as <-.
    assert (Q : ex w0 w1 /\ w_pools w1 = w_pools w). { refine (foldM_inv _ (fun x => ex w0 x /\ w_pools x = w_pools w) _ w w1 _ _ H1); [now split|]. intros x a y _ [Ex Px] J. destruct (remove_one_ex w0 _ _ _ _ _ Ex J). split; [assumption | congruence]. }
    destruct Q as [Q1 Q2]. destruct (w_simul w1); [|now split]. split; [|exact Q2]. destruct Q1 as [[B1 B2] B3 B4 B5 B6]. constructor; try assumption.
    - split; [exact (hp_same w1 _ eq_refl eq_refl eq_refl B1)|]. intros a ag G. cbn in G. rewrite get_map_snd in G. destruct (get (w_agents w1) a) as [ag0|] eqn:G0; [|discriminate]. injection G as <-. destruct (B2 _ _ G0) as (I1 & I2 & I3 & I4). unfold drop_from_new.
      destruct (a_new ag0) as [st|] eqn:En; [|rewrite En; auto]. cbn [agent_set_new a_id a_stake a_strategy a_new]. split; [exact I1|]. split; [exact I2|]. split; [exact I3|]. intros st' [= <-]. apply strat_pop. now apply I4.
    - intros a. rewrite <- B4. cbn. rewrite get_map_snd. destruct (get (w_agents w1) a) as [ag0|]; [|reflexivity]. cbn. unfold drop_from_new. destruct (a_new ag0) as [st|] eqn:En; [|reflexivity]. unfold owns. cbn. now rewrite En.
  Qed.
  Lemma close_ex w0 w id w' : ex w0 w -> close_pool w id = Ok w' -> ex w0 w' /\ w_pools w' = pop (w_pools w) id.
  Proof.
    intros E H. unfold close_pool in H. apply bind_ok in H as (r & _ & H). apply bind_ok in H as (w1 & H1 & H). apply bind_ok in H as (w2 & H2 & H). apply bind_ok in H as (w3 & H3 & H). injection H as <-.
    apply rank_remove_frame in H1. apply rankm_remove_frame in H2. destruct (remove_delegations_ex w0 w2 r w3) as [E3 P3]; [eapply ex_frame; [eapply ex_frame; eassumption | exact H2] | exact H3|].
    split; [eapply ex_same; [exact E3|..]; reflexivity|]. cbn. rewrite P3. destruct H1 as (_ & _ & H1 & _). destruct H2 as (_ & _ & H2 & _). congruence.
  Qed.
  Lemma update_pool_ex w0 uid w id w' : ex w0 w -> update_pool uid w id = Ok w' -> ex w0 w' /\ exists ag new r, get (w_agents w) uid = Some ag /\ a_new ag = Some new /\ get (s_owned new) id = Some r /\ (forall i, get (w_pools w') i = get (set (w_pools w) id r) i) /\ keys (w_pools w') = keys (set (w_pools w) id r).
  Proof.
    intros E H. unfold update_pool in H. apply bind_ok in H as (ag & Hag & H). apply bind_ok in H as (new & Hn & H). apply bind_ok in H as (r & Hr & H). apply bind_ok in H as (p & _ & H).
    apply the_agent_get in Hag. apply of_option_ok in Hn. apply of_option_ok in Hr.
    apply bind_ok in H as (w1 & H1 & H). assert (Q : ex w0 w1 /\ w_pools w1 = w_pools w). { destruct (p_private p && _)%bool; [exact (remove_delegations_ex _ _ _ _ E H1) | injection H1 as <-; now split]. }
    destruct Q as [E1 P1]. apply bind_ok in H as (ag2 & _ & H). apply bind_ok in H as (st & _ & H). apply bind_ok in H as (old & _ & H). apply bind_ok in H as (w3 & H3 & H). apply bind_ok in H as (w4 & H4 & H).
    apply bind_ok in H as (w5 & H5 & H). apply bind_ok in H as (w6 & H6 & H). injection H as <-.
    apply rank_remove_frame in H3. apply rank_add_frame in H4. apply rankm_remove_frame in H5. apply rankm_add_frame in H6.
    assert (E6 : ex w0 w6). { eapply ex_frame; [|exact H6]. eapply ex_frame; [|exact H5]. eapply ex_frame; [|exact H4]. eapply ex_frame; [|exact H3]. eapply ex_same; [exact E1|..]; reflexivity. }
    assert (P6 : w_pools w6 = set (w_pools w) id r). { destruct H3 as (_ & _ & H3 & _). destruct H4 as (_ & _ & H4 & _). destruct H5 as (_ & _ & H5 & _). destruct H6 as (_ & _ & H6 & _). rewrite H6, H5, H4, H3. cbn. now rewrite P1. }
    split; [eapply ex_same; [exact E6|..]; reflexivity|]. exists ag, new, r. repeat (split; [assumption|]). cbn [w_pools with_pools]. rewrite P6. split.
    - intros i. rewrite !get_set. destruct (Nat.eqb id i); reflexivity.
    - rewrite keys_set_in; [reflexivity|]. apply get_Some_key. exists r. apply get_set_eq.
  Qed.
  Lemma open_ex w0 uid w id w' : ex w0 w -> open_pool uid w id = Ok w' -> ex w0 w' /\ w_agents w' = w_agents w /\ exists ag st r, get (w_agents w) uid = Some ag /\ a_strategy ag = Some st /\ get (s_owned st) id = Some r /\ w_pools w' = set (w_pools w) id r.
  Proof.
    intros E H. unfold open_pool in H. apply bind_ok in H as (ag & Hag & H). apply bind_ok in H as (st & Hst & H). apply bind_ok in H as (r & Hr & H). apply bind_ok in H as (w2 & H2 & H).
    apply the_agent_get in Hag. unfold the_strategy in Hst. apply of_option_ok in Hst. apply of_option_ok in Hr. apply rank_add_frame in H2. apply rankm_add_frame in H.
    split; [eapply ex_frame; [|exact H]; eapply ex_frame; [|exact H2]; eapply ex_same; [exact E|..]; reflexivity|]. destruct H2 as (_ & A2 & H2 & _). destruct H as (_ & A3 & H & _). split; [rewrite A3, A2; reflexivity|]. exists ag, st, r. repeat (split; [assumption|]). rewrite H, H2. reflexivity.
  Qed.

  Lemma fold_pools (f : world A -> nat -> res (world A)) (Q : world A -> Prop) (v : nat -> option nat) :
    (forall x id x', Q x -> f x id = Ok x' -> Q x' /\ forall i, get (w_pools x') i = if Nat.eqb id i then v id else get (w_pools x) i) ->
    forall l w w', Q w -> foldM f l w = Ok w' -> Q w' /\ forall i, get (w_pools w') i = if in_dec Nat.eq_dec i l then v i else get (w_pools w) i.
  Proof.
    intros Hf. induction l as [|id l IH]; intros w w' Hq H; cbn [foldM] in H; [injection H as <-; split; [exact Hq | reflexivity]|]. apply bind_ok in H as (w1 & H1 & H). destruct (Hf _ _ _ Hq H1) as [Q1 P1].
    destruct (IH _ _ Q1 H) as [Q2 P2]. split; [exact Q2|]. intros i. rewrite P2, P1. destruct (in_dec Nat.eq_dec i l) as [J|J], (in_dec Nat.eq_dec i (id :: l)) as [J'|J']; auto; [exfalso; apply J'; now right| |].
    - destruct J' as [->|J']; [now rewrite Nat.eqb_refl | contradiction].
    - destruct (Nat.eqb_spec id i) as [->|]; [exfalso; apply J'; now left | reflexivity].
  Qed.
  Lemma diff_In (l1 l2 : list nat) i : In i (diff l1 l2) <-> In i l1 /\ ~ In i l2.
  Proof. unfold diff. rewrite filter_In, negb_true_iff, inb_false. reflexivity. Qed.
  Lemma inter_In (l1 l2 : list nat) i : In i (inter l1 l2) <-> In i l1 /\ In i l2.
  Proof. unfold inter. rewrite filter_In, inb_spec. reflexivity. Qed.
  Lemma execute_full w uid w' : full w -> execute_strategy so w uid = Ok w' -> full w' /\ nx w w' /\ w_rss w' = w_rss w.
  Proof.
    intros [Hb [N Hr]] H. unfold execute_strategy in H. apply bind_ok in H as (ag & Hag & H). apply bind_ok in H as (old & Hold & H). apply bind_ok in H as (new & Hnew & H).
    apply the_agent_get in Hag. unfold the_strategy in Hold. apply of_option_ok in Hold. apply of_option_ok in Hnew.
    apply bind_ok in H as (w1 & H1 & H). apply bind_ok in H as (w2 & H2 & H). apply bind_ok in H as (w3 & H3 & H). apply bind_ok in H as (w4 & H4 & H). apply bind_ok in H as (ag4 & Hag4 & H). apply the_agent_get in Hag4.
    destruct (touches_ex uid (fun i => i) (fun _ => zero) w _ w w1 (ex_refl _ Hb) H1) as [E1 P1]. destruct (touches_ex uid fst snd w _ w1 w2 E1 H2) as [E2 P2].
    set (oo := keys (s_owned old)) in *. set (no := keys (s_owned new)) in *.
    destruct (fold_pools close_pool (fun x => ex w x /\ NoDup (keys (w_pools x))) (fun _ => None)) with (3 := H3) as [[E3 N3] P3].
    { intros x id x' [Ex Nx] J. destruct (close_ex w x id x' Ex J) as [Ex' ->]. split; [split; [exact Ex' | now apply NoDup_pop]|]. intros i. now apply get_pop. }
    { split; [exact E2 | now rewrite P2, P1]. }
    destruct (fold_pools (update_pool uid) (fun x => ex w x /\ NoDup (keys (w_pools x))) (get (s_owned new))) with (3 := H4) as [[E4 N4] P4].
    { intros x id x' [Ex Nx] J. destruct (update_pool_ex w uid x id x' Ex J) as (Ex' & bg & bn & r & G1 & G2 & G3 & G4 & G5).
      assert (Eo := ex_owns _ _ Ex uid). rewrite G1, Hag in Eo. unfold owns in Eo. cbn in Eo. rewrite G2, Hnew in Eo. cbn in Eo. injection Eo as _ Eo _. rewrite Eo in G3.
      split; [split; [exact Ex' | rewrite G5; now apply NoDup_set]|]. intros i. rewrite G4, get_set. destruct (Nat.eqb_spec id i) as [<-|]; [now rewrite G3 | reflexivity]. }
    { now split. }
    assert (Eo := ex_owns _ _ E4 uid). rewrite Hag4, Hag in Eo. unfold owns in Eo. cbn in Eo. rewrite Hold, Hnew in Eo. cbn in Eo. destruct (a_new ag4) as [new4|] eqn:En4; [|discriminate]. cbn in Eo. injection Eo as _ Eo Es.
    set (w5 := put_agent w4 uid (agent_set_new None (agent_set_strategy (Some new4) ag4))) in *.
    assert (B5 : book w5). { destruct (proj2 (ex_book _ _ E4) _ _ Hag4) as (I1 & I2 & I3 & I4). apply book_put; cbn [agent_set_new agent_set_strategy a_id a_stake a_strategy a_new]; [exact (ex_book _ _ E4) | exact I1 | exact I2 | now rewrite <- En4 | discriminate]. }
    destruct (fold_pools (open_pool uid) (fun x => ex w5 x /\ w_agents x = w_agents w5 /\ NoDup (keys (w_pools x))) (get (s_owned new))) with (3 := H) as [(E6 & A6 & N6) P6].
    { intros x id x' (Ex & Ax & Nx) J. destruct (open_ex w5 uid x id x' Ex J) as (Ex' & Ax' & bg & bn & r & G1 & G2 & G3 & G4). rewrite Ax in G1. unfold w5 in G1. cbn in G1. rewrite get_set_eq in G1. injection G1 as <-. cbn in G2. injection G2 as <-. rewrite Eo in G3.
      split; [split; [exact Ex' | split; [congruence | rewrite G4; now apply NoDup_set]]|]. intros i. rewrite G4, get_set. destruct (Nat.eqb_spec id i) as [<-|]; [now rewrite G3 | reflexivity]. }
    { split; [now apply ex_refl | split; [reflexivity | exact N4]]. }
    assert (L1 : forall i, In i (so (oo ++ no) (diff oo no)) <-> In i oo /\ ~ In i no) by (intros i; rewrite <- diff_In; split; apply Permutation_in; [|symmetry]; apply so_perm).
    assert (L2 : forall i, In i (so (no ++ oo) (inter no oo)) <-> In i no /\ In i oo) by (intros i; rewrite <- inter_In; split; apply Permutation_in; [|symmetry]; apply so_perm).
    assert (L3 : forall i, In i (so (no ++ oo) (diff no oo)) <-> In i no /\ ~ In i oo) by (intros i; rewrite <- diff_In; split; apply Permutation_in; [|symmetry]; apply so_perm).
    assert (Pools : forall i, get (w_pools w') i = if in_dec Nat.eq_dec i no then get (s_owned new) i else if in_dec Nat.eq_dec i oo then None else get (w_pools w) i).
    { intros i. rewrite P6. change (w_pools w5) with (w_pools w4). rewrite P4, P3, P2, P1. assert (M1 := L1 i). assert (M2 := L2 i). assert (M3 := L3 i).
      destruct (in_dec Nat.eq_dec i (so (no ++ oo) (diff no oo))), (in_dec Nat.eq_dec i (so (no ++ oo) (inter no oo))), (in_dec Nat.eq_dec i (so (oo ++ no) (diff oo no))), (in_dec Nat.eq_dec i no), (in_dec Nat.eq_dec i oo); try reflexivity; exfalso; tauto. }
    assert (K0 : hk w w'). { eapply hk_trans; [exact (ex_hk _ _ E4)|]. intros r p G. exact (ex_hk _ _ E6 r p G). }
    assert (Ow : forall b bg, get (w_agents w') b = Some bg -> if Nat.eqb uid b then option_map (@s_owned A) (a_strategy bg) = Some (s_owned new) else option_map (fun x => option_map (@s_owned A) (a_strategy x)) (get (w_agents w) b) = Some (option_map (@s_owned A) (a_strategy bg))).
    { intros b bg G. rewrite A6 in G. unfold w5 in G. cbn in G. rewrite get_set in G. destruct (Nat.eqb_spec uid b) as [<-|Ne]; [injection G as <-; cbn; now rewrite Eo|].
      assert (Q := ex_owns _ _ E4 b). rewrite G in Q. destruct (get (w_agents w) b) as [bg0|]; [|discriminate]. cbn in Q. unfold owns in Q. injection Q as Q1 _ _. cbn. now rewrite Q1. }
    assert (Fo : forall b bg st id r, get (w_agents w) b = Some bg -> a_strategy bg = Some st -> get (s_owned st) id = Some r -> exists p, get (w_heap w) r = Some p /\ p_id p = id /\ p_owner p = b).
    { intros b bg st id r G1 G2 G3. destruct (proj2 Hb _ _ G1) as (_ & _ & I3 & _). destruct (I3 st G2) as (_ & _ & ps & F & _). exact (mine_get _ _ _ _ _ _ F G3). }
    assert (Fn : forall id r, get (s_owned new) id = Some r -> exists p, get (w_heap w) r = Some p /\ p_id p = id /\ p_owner p = uid).
    { intros id r G. destruct (proj2 Hb _ _ Hag) as (_ & _ & _ & I4). destruct (I4 new Hnew) as (_ & _ & ps & F & _). exact (mine_get _ _ _ _ _ _ F G). }
    split; [split; [exact (ex_book _ _ E6)|]|split; [|rewrite (ex_rss _ _ E6); exact (ex_rss _ _ E4)]].
    2:{ assert (Ids : w_idseq w' = w_idseq w) by (rewrite (ex_ids _ _ E6); exact (ex_ids _ _ E4)).
      assert (Pend : forall id, pending w' id -> exists b bg st, b <> uid /\ get (w_agents w) b = Some bg /\ a_new bg = Some st /\ In id (keys (s_owned st))).
      { intros id (b & bg & st & G1 & G2 & G3). rewrite A6 in G1. unfold w5 in G1. cbn in G1. rewrite get_set in G1. destruct (Nat.eqb_spec uid b) as [<-|Ne]; [injection G1 as <-; discriminate|].
        assert (Q := ex_owns _ _ E4 b). rewrite G1 in Q. destruct (get (w_agents w) b) as [bg0|] eqn:G0; [|discriminate]. cbn in Q. unfold owns in Q. injection Q as _ Q _. rewrite G2 in Q. destruct (a_new bg0) as [st0|] eqn:S0; [|discriminate]. cbn in Q. injection Q as Q.
        exists b, bg0, st0. rewrite <- Q. auto. }
      assert (Pk : forall id, In id (keys (w_pools w')) <-> In id no \/ (~ In id oo /\ In id (keys (w_pools w)))).
      { intros id. rewrite <- !get_Some_key. rewrite Pools. destruct (in_dec Nat.eq_dec id no) as [J|J]; [split; auto; intros _; now apply get_Some_key in J|]. destruct (in_dec Nat.eq_dec id oo) as [J'|J']; [|tauto]. split; [intros (? & ?); discriminate | tauto]. }
      split; [exact K0|]. split; [lia|]. split.
      - intros id J. destruct (in_dec Nat.eq_dec id no) as [J1|J1]; [left; apply Pk; now left|]. destruct (in_dec Nat.eq_dec id oo) as [J2|J2]; [right | left; apply Pk; now right].
        apply get_Some_key in J2 as (r1 & J2). destruct (Fo uid ag old id r1 Hag Hold J2) as (q & Gq & Iq & Oq). split; [rewrite Ids; apply (proj1 (proj1 Hb)) in Gq; lia|]. split; [intros J3; apply Pk in J3 as [J3|[J3 _]]; [contradiction | apply J3; apply get_Some_key; eauto]|].
        intros Jp. apply Pend in Jp as (b & bg & st & Ne & G1 & G2 & G3). apply get_Some_key in G3 as (r3 & G3). destruct (proj2 Hb _ _ G1) as (_ & _ & _ & I4). destruct (I4 st G2) as (_ & _ & ps & F & _). destruct (mine_get _ _ _ _ _ _ F G3) as (p3 & Gp & Ip & Op).
        apply Ne. rewrite <- Oq, <- Op. apply (proj2 (proj1 Hb) r3 r1 p3 q Gp Gq). congruence.
      - intros id (L & Np & Nn). split; [now rewrite Ids|]. split; [|intros Jp; apply Pend in Jp as (b & bg & st & _ & G1 & G2 & G3); apply Nn; exists b, bg, st; auto].
        intros J. apply Pk in J as [J|[_ J]]; [|contradiction]. apply Nn. exists uid, ag, new. auto. }
    split; [exact N6|]. intros id r. rewrite Pools. split.
    - intros G. destruct (in_dec Nat.eq_dec id no) as [J|J].
      + exists uid, (agent_set_new None (agent_set_strategy (Some new4) ag4)), new4. rewrite A6. unfold w5. cbn. rewrite get_set_eq, Eo. auto.
      + destruct (in_dec Nat.eq_dec id oo) as [Jo|Jo]; [discriminate|]. apply Hr in G as (b & bg & st & G1 & G2 & G3).
        assert (Ne : uid <> b). { intros <-. rewrite Hag in G1. injection G1 as <-. rewrite Hold in G2. injection G2 as <-. apply Jo. apply get_Some_key. eauto. }
        assert (Q := ex_owns _ _ E4 b). rewrite G1 in Q. destruct (get (w_agents w4) b) as [b4|] eqn:G4; [|discriminate]. cbn in Q. unfold owns in Q. injection Q as Q _ _. rewrite G2 in Q. destruct (a_strategy b4) as [st4|] eqn:S4; [|discriminate]. cbn in Q. injection Q as Q.
        exists b, b4, st4. rewrite A6. unfold w5. cbn. rewrite get_set_ne by exact Ne. rewrite Q. auto.
    - intros (b & bg & st & G1 & G2 & G3). assert (Q := Ow b bg G1). rewrite G2 in Q. destruct (Nat.eqb_spec uid b) as [<-|Ne].
      + cbn in Q. injection Q as Q. rewrite Q in G3. assert (J : In id no) by (apply get_Some_key; eauto). destruct (in_dec Nat.eq_dec id no); [exact G3 | contradiction].
      + destruct (get (w_agents w) b) as [bg0|] eqn:G0; [|discriminate]. cbn in Q. injection Q as Q. destruct (a_strategy bg0) as [st0|] eqn:S0; [|discriminate]. cbn in Q. injection Q as Q. rewrite <- Q in G3.
        destruct (Fo b bg0 st0 id r G0 S0 G3) as (p & Gp & Ip & Op). assert (Gr : get (w_pools w) id = Some r) by (apply Hr; exists b, bg0, st0; auto).
        destruct (in_dec Nat.eq_dec id no) as [J|J].
        * apply get_Some_key in J as (r1 & J). destruct (Fn id r1 J) as (q & Gq & Iq & Oq). exfalso. apply Ne. rewrite <- Oq, <- Op. apply (proj2 (proj1 Hb) r1 r q p Gq Gp). congruence.
        * destruct (in_dec Nat.eq_dec id oo) as [Jo|Jo]; [|exact Gr]. apply get_Some_key in Jo as (r1 & Jo). destruct (Fo uid ag old id r1 Hag Hold Jo) as (q & Gq & Iq & Oq). exfalso. apply Ne. rewrite <- Oq, <- Op. apply (proj2 (proj1 Hb) r1 r q p Gq Gp). congruence.
  Qed.
  Definition kept w w' : Prop := full w' /\ nx w w' /\ w_rss w' = w_rss w.
  Lemma advance_full w uid w' : full w -> advance so w uid = Ok w' -> kept w w'.
  Proof.
    intros Hf H. unfold advance in H. apply bind_ok in H as (ag & _ & H). destruct (a_new ag); [|injection H as <-; split; [exact Hf | split; [apply nx_refl | reflexivity]]]. apply bind_ok in H as (w1 & H1 & H). injection H as <-. exact (execute_full _ _ _ Hf H1).
  Qed.
  Lemma event_full w e w' : (forall n, n <= Z.to_nat (r_k (w_rss w)) -> K n) -> full w -> do_event so w e = Ok w' -> kept w w'.
  Proof.
    intros HK Hf H. destruct e as [a|a]; cbn in H; [|exact (advance_full _ _ _ Hf H)]. unfold agent_step in H. apply bind_ok in H as (w1 & H1 & H). assert (G1 := update_full _ _ _ HK Hf H1).
    destruct (w_simul w1); [now injection H as <-|]. destruct G1 as (F1 & K1 & R1). destruct (advance_full _ _ _ F1 H) as (F2 & K2 & R2). split; [exact F2|]. split; [eapply nx_trans; eassumption | congruence].
  Qed.
  Lemma events_full evs : forall w w', (forall n, n <= Z.to_nat (r_k (w_rss w)) -> K n) -> full w -> foldM (do_event so) evs w = Ok w' -> kept w w'.
  Proof.
    induction evs as [|e evs IH]; intros w w' HK Hf H; cbn [foldM] in H; [injection H as <-; split; [exact Hf | split; [apply nx_refl | reflexivity]]|]. apply bind_ok in H as (w1 & H1 & H).
    destruct (event_full _ _ _ HK Hf H1) as (F1 & K1 & R1). destruct (IH w1 w') as (F2 & K2 & R2); [now rewrite R1 | exact F1 | exact H|]. split; [exact F2|]. split; [eapply nx_trans; eassumption | congruence].
  Qed.

  (** * phases, rounds, runs *)
  Lemma full_same w w' : w_heap w' = w_heap w -> w_agents w' = w_agents w -> w_pools w' = w_pools w -> w_next w' = w_next w -> w_idseq w' = w_idseq w -> full w -> full w'.
  Proof.
    intros E1 E2 E3 E4 E5 [[H1 H2] [H3 H4]]. split; [split; [exact (hp_same w w' E1 E4 E5 H1) | exact (agents_hk w w' (hk_eq _ _ E1) E2 H2)]|]. split; rewrite E3; [exact H3|]. intros id r. rewrite H4, E2. reflexivity.
  Qed.
  Lemma full_frame w w' : frame w w' -> full w -> full w'.
  Proof. intros (E1 & E2 & E3 & E4 & E5 & E6 & E7). now apply full_same. Qed.
  Lemma full_store w r p q : full w -> get (w_heap w) r = Some p -> terms p q -> full (store w r q) /\ hk w (store w r q).
  Proof.
    intros [Hb Hr] G Ht. destruct (ex_store w w r p q (ex_refl _ Hb) G Ht) as [B1 B2 _ _ _]. split; [split; [exact B1|exact Hr]|exact B2].
  Qed.
  Lemma nx_frame w w' : frame w w' -> nx w w'.
  Proof. intros (E1 & E2 & E3 & E4 & E5 & E6 & E7). apply nx_same; [now apply hk_eq | assumption..]. Qed.
  Lemma setting_keeps v s s' : apply_setting v s = Ok s' -> w_heap (s_w s') = w_heap (s_w s) /\ w_agents (s_w s') = w_agents (s_w s) /\ w_pools (s_w s') = w_pools (s_w s) /\ w_next (s_w s') = w_next (s_w s) /\ w_idseq (s_w s') = w_idseq (s_w s).
  Proof. intros H. destruct v; cbn in H; try (injection H as <-; repeat split; reflexivity). apply bind_ok in H as (r & _ & H). injection H as <-. repeat split; reflexivity. Qed.
  Lemma change_phase_full s s' : full (s_w s) -> change_phase s = Ok s' -> full (s_w s') /\ nx (s_w s) (s_w s').
  Proof.
    intros G H. unfold change_phase in H. apply bind_ok in H as (w1 & H1 & H). apply bind_ok in H as (s2 & H2 & H). apply bind_ok in H as (w2 & H3 & H). cbn [s_w set_phase] in H1.
    set (Q := fun x => full x /\ nx (s_w s) x).
    assert (G0 : Q (s_w s)) by (split; [exact G | apply nx_refl]).
    assert (G1 : Q w1).
    { refine (foldM_inv _ Q _ _ w1 G0 _ H1). intros x r y _ [Gx Hx] J. apply bind_ok in J as (x1 & J1 & J). apply rank_remove_frame in J1. apply rankm_remove_frame in J.
      split; [exact (full_frame _ _ J (full_frame _ _ J1 Gx))|]. eapply nx_trans; [exact Hx|]. eapply nx_trans; apply nx_frame; eassumption. }
    assert (G2 : Q (s_w s2)).
    { refine (foldM_inv _ (fun s => Q (s_w s)) _ _ s2 _ _ H2); [exact G1|]. intros x v y _ [Gx Hx] J. apply setting_keeps in J as (J1 & J2 & J3 & J4 & J5). split; [exact (full_same _ _ J1 J2 J3 J4 J5 Gx) | eapply nx_trans; [exact Hx | apply nx_same; [now apply hk_eq | assumption..]]]. }
    assert (G3 : Q w2).
    { refine (foldM_inv _ Q _ _ w2 G2 _ H3). intros x r y _ [Gx Hx] J. unfold rerank_pool in J. apply bind_ok in J as (p & J1 & J). apply bind_ok in J as (p1 & J2 & J). apply bind_ok in J as (x1 & J3 & J).
      apply of_option_ok in J1. apply rank_add_frame in J3. apply rankm_add_frame in J.
      assert (Ht : terms p (pool_set_desirability p1)). { unfold pool_set_profit in J2. apply bind_ok in J2 as (pp & _ & J2). injection J2 as <-. repeat split. }
      destruct (full_store x r p _ Gx J1 Ht) as [F1 K1]. split; [exact (full_frame _ _ J (full_frame _ _ J3 F1))|]. eapply nx_trans; [exact Hx|]. eapply nx_trans; [apply (nx_same x); [exact K1 | reflexivity..]|]. eapply nx_trans; apply nx_frame; eassumption. }
    injection H as <-. destruct (phase_settings _ _); exact G3.
  Qed.
  Lemma sim_step_full ch s s' : (forall n, n <= Z.to_nat (r_k (w_rss (s_w s))) -> K n) -> full (s_w s) -> sim_step so ch s = Ok s' -> full (s_w s') /\ nx (s_w s) (s_w s').
  Proof.
    intros HK G H. apply sim_step_cases in H as [[_ ->]|(_ & w & H & Q)]; [split; [exact G | apply nx_refl]|].
    assert (Gw : kept (s_w s) w). { unfold schedule_step in H. apply bind_ok in H as (evs & _ & H). exact (events_full _ _ _ HK G H). } destruct Gw as (F & Hk & _).
    assert (Id : forall x, full x -> full (with_idle true x)) by (intros x; now apply full_same).
    destruct Q as [[_ ->]|[(_ & _ & ->)|[(_ & _ & _ & s4 & H4 & ->)|(_ & _ & _ & ->)]]]; try (split; [first [exact (Id _ F) | exact F] | first [exact Hk | eapply nx_trans; [exact Hk | apply (nx_same w); [now apply hk_eq | reflexivity..]]]]).
    destruct (change_phase_full (noted s w) s4 F H4) as [F4 K4]. split; [exact (Id _ F4)|]. eapply nx_trans; [exact Hk|]. eapply nx_trans; [exact K4 | apply (nx_same (s_w s4)); [now apply hk_eq | reflexivity..]].
  Qed.
  Section From.
    Variable s0 : sim A.
    Hypothesis start : full (s_w s0).
    Hypothesis few : forall s, reach so s0 s -> (forall n, n <= Z.to_nat (r_k (w_rss (s_w s))) -> K n).
    Lemma reach_full s : reach so s0 s -> full (s_w s) /\ nx (s_w s0) (s_w s).
    Proof.
      intros R. induction R as [|ch s s' R IH H]; [split; [exact start | apply nx_refl]|]. destruct IH as [F1 K1]. destruct (sim_step_full ch s s' (few s R) F1 H) as [F2 K2]. split; [exact F2 | eapply nx_trans; eassumption].
    Qed.
    Lemma visible_full w : visible so s0 w -> full w /\ nx (s_w s0) w.
    Proof.
      intros V. destruct V as [s R|s ch evs1 evs2 w R _ H]; [now apply reach_full|]. destruct (reach_full s R) as [F1 K1]. destruct (events_full evs1 _ w (few s R) F1 H) as (F2 & K2 & _). split; [exact F2 | eapply nx_trans; eassumption].
    Qed.
  End From.
  Lemma init_full g profiles stakes costs s0 : (forall a ag, get (w_agents (s_w s0)) a = Some ag -> ST (a_stake ag)) -> init g profiles stakes costs = Ok s0 -> full (s_w s0).
  Proof.
    intros Hs H. apply init_fresh in H. split; [split|].
    - split; intros r; intros; rewrite (fs_heap _ _ _ _ _ H) in *; discriminate.
    - intros a ag G. assert (Sa := Hs a ag G). apply (fs_agents _ _ _ _ _ H) in G as (x & c & p & -> & _). split; [reflexivity|]. split; [exact Sa|]. split; [|cbn; discriminate].
      intros st E. destruct p; cbn in E; try discriminate; injection E as <-; (split; [constructor|]; split; [exact K_nil|]; exists []; split; [constructor | now apply C_nil]).
    - split; [rewrite (fs_pools _ _ _ _ _ H); constructor|]. intros id r. rewrite (fs_pools _ _ _ _ _ H). split; [discriminate|]. intros (a & ag & st & G1 & G2 & G3).
      apply (fs_agents _ _ _ _ _ H) in G1 as (x & c & p & -> & _). destruct p; cbn in G2; try discriminate; injection G2 as <-; discriminate.
  Qed.
End AnyBooks.
