(** Facts about single pool objects that hold under every activation order: [P] holds of every pool object ever made and [D] of every delegation an agent has
    chosen, if the operations on pool objects preserve them. *)
From Coq Require Import ZArith List Bool Arith Lia Permutation.
From Verif Require Import Num Py Rewards SortedKeyList World Stakeholder Sched Sim Init Reach ListFacts Greedy Inv SimInv.
Import ListNotations.

Section AnyOrder.
  Context {A : Arith}.
  Variable so : list nat -> list nat -> list nat.
  Notation num := (T A).
  Implicit Types w : world A. Implicit Types p q : pool A. Implicit Types st new : strategy A. Implicit Types ag : agent A. Implicit Types s : sim A.
  Variable P : pool A -> Prop.
  Definition big (v : num) : Prop := ltb v min_stake_unit = false.
  Hypothesis P_upd : forall p v a, P p -> v = zero \/ big v -> P (update_delegation v a p).
  Hypothesis P_adjust : forall w ag pledge cost margins i p p', P p -> adjust_pool w ag pledge cost margins i p = Ok p' -> P p'.
  Hypothesis P_draft : forall w ag pledge cost margins i id p, draft_pool w ag pledge cost margins i id = Ok p -> P p.
  Hypothesis P_reprice : forall rs p p', P p -> pool_set_profit rs p = Ok p' -> P (pool_set_desirability p').

  Definition bigs (d : dict num) : Prop := forall id v, In (id, v) d -> big v.
  Definition ok_strategy (o : option (strategy A)) : Prop := forall st, o = Some st -> bigs (s_alloc st).
  Definition ok_agent ag : Prop := ok_strategy (a_strategy ag) /\ ok_strategy (a_new ag).
  Definition ok_heap w : Prop := forall r p, get (w_heap w) r = Some p -> P p.
  Definition ok_agents w : Prop := forall a ag, In (a, ag) (w_agents w) -> ok_agent ag.
  Definition ok w : Prop := ok_heap w /\ ok_agents w.

  Lemma In_set {V} (d : dict V) k v k' v' : In (k', v') (set d k v) -> (k' = k /\ v' = v) \/ In (k', v') d.
  Proof.
    induction d as [|[j x] d IH]; cbn; [intros [[= <- <-]|[]]; auto|]. destruct (Nat.eqb_spec k j) as [->|N]; cbn; intros [E|E]; auto; [injection E as <- <-; auto|]. apply IH in E. tauto.
  Qed.
  Lemma In_pop {V} (d : dict V) k k' v' : In (k', v') (pop d k) -> In (k', v') d.
  Proof. induction d as [|[j x] d IH]; cbn; [auto|]. destruct (Nat.eqb_spec k j) as [->|N]; cbn; [tauto|]. intros [E|E]; auto. Qed.
  Lemma the_agent_In w a ag : the_agent w a = Ok ag -> In (a, ag) (w_agents w).
  Proof. unfold the_agent. destruct (get (w_agents w) a) eqn:E; [|discriminate]. intros [= <-]. now apply get_In. Qed.
  Lemma deref_get w r p : deref w r = Ok p -> get (w_heap w) r = Some p.
  Proof. unfold deref. destruct (get (w_heap w) r); [|discriminate]. now intros [= <-]. Qed.

  Lemma fold_keeps {X Y} (f : X -> Y -> res X) (Q : X -> Prop) l a b : (forall a x a', Q a -> f a x = Ok a' -> Q a') -> Q a -> foldM f l a = Ok b -> Q b.
  Proof. intros H Qa. apply foldM_inv; [exact Qa|]. intros x y x' _. apply H. Qed.

  (** changes which leave pool objects and agents alone *)
  Definition same_objects w w' : Prop := w_heap w' = w_heap w /\ w_agents w' = w_agents w.
  Lemma ok_same w w' : same_objects w w' -> ok w -> ok w'.
  Proof. intros [E1 E2] [H1 H2]. unfold ok, ok_heap, ok_agents. now rewrite E1, E2. Qed.
  Lemma rank_add_same w r w' : rank_add w r = Ok w' -> same_objects w w'.
  Proof. unfold rank_add. intros H. apply bind_ok in H as (p & _ & H). now injection H as <-. Qed.
  Lemma rank_remove_same w r w' : rank_remove w r = Ok w' -> same_objects w w'.
  Proof. unfold rank_remove. intros H. apply bind_ok in H as (p & _ & H). apply bind_ok in H as (l & _ & H). now injection H as <-. Qed.
  Lemma rankm_add_same w r w' : rankm_add w r = Ok w' -> same_objects w w'.
  Proof. unfold rankm_add. intros H. apply bind_ok in H as (p & _ & H). apply bind_ok in H as (k & _ & H). now injection H as <-. Qed.
  Lemma rankm_remove_same w r w' : rankm_remove w r = Ok w' -> same_objects w w'.
  Proof. unfold rankm_remove. intros H. apply bind_ok in H as (p & _ & H). apply bind_ok in H as (k & _ & H). apply bind_ok in H as (l & _ & H). now injection H as <-. Qed.
  Lemma ok_store w r p : ok w -> P p -> ok (store w r p).
  Proof.
    intros [H1 H2] Hp. split; [|exact H2]. intros r' p'. cbn. destruct (Nat.eq_dec r' r) as [->|N].
    - rewrite get_set_eq. now intros [= <-].
    - rewrite get_set_ne by congruence. apply H1.
  Qed.
  Lemma ok_alloc w p : ok w -> P p -> ok (fst (alloc w p)).
  Proof.
    intros [H1 H2] Hp. split; [|exact H2]. intros r' p'. cbn. destruct (Nat.eq_dec r' (w_next w)) as [->|N].
    - rewrite get_set_eq. now intros [= <-].
    - rewrite get_set_ne by congruence. apply H1.
  Qed.
  Lemma ok_put w a ag : ok w -> ok_agent ag -> ok (put_agent w a ag).
  Proof. intros [H1 H2] Ha. split; [exact H1|]. intros a' ag' J. cbn in J. apply In_set in J as [[_ ->]|J]; [exact Ha | exact (H2 _ _ J)]. Qed.

  Lemma touch_ok uid w id v w' : ok w -> v = zero \/ big v -> touch_delegation uid w id v = Ok w' -> ok w'.
  Proof.
    intros G Hv H. unfold touch_delegation in H. apply bind_ok in H as (r & _ & H). apply bind_ok in H as (w1 & H1 & H). apply bind_ok in H as (p & H2 & H).
    apply (ok_same _ _ (rankm_remove_same _ _ _ H1)) in G. apply (ok_same _ _ (rankm_add_same _ _ _ H)). apply ok_store; [exact G|].
    apply P_upd; [|exact Hv]. apply deref_get in H2. exact (proj1 G _ _ H2).
  Qed.
  Lemma touch_all_ok uid w (d : dict num) w' : ok w -> bigs d -> foldM (fun w e => touch_delegation uid w (fst e) (snd e)) d w = Ok w' -> ok w'.
  Proof.
    intros G Hd. revert w G. induction d as [|[id v] d IH]; intros w G H; cbn -[touch_delegation] in H; [now injection H as <-|].
    apply bind_ok in H as (w1 & H1 & H). apply IH in H; [exact H | intros i x J; apply (Hd i); now right |]. refine (touch_ok _ _ _ _ _ G _ H1). right. apply (Hd id). now left.
  Qed.
  Lemma touch_zero_ok {Y} uid w (f : Y -> nat) (l : list Y) w' : ok w -> foldM (fun w e => touch_delegation uid w (f e) zero) l w = Ok w' -> ok w'.
  Proof.
    revert w. induction l as [|y l IH]; intros w G H; cbn -[touch_delegation] in H; [now injection H as <-|]. apply bind_ok in H as (w1 & H1 & H).
    apply IH in H; [exact H|]. refine (touch_ok _ _ _ _ _ G _ H1). now left.
  Qed.

  (** * the allocations found are large enough *)
  Hypothesis O : OrdLaws A.
  Lemma bigs_set d id v : bigs d -> big v -> bigs (set d id v).
  Proof. intros Hd Hv i x J. apply In_set in J as [[_ ->]|J]; [exact Hv | exact (Hd _ _ J)]. Qed.
  Lemma greedy_bigs rs : forall eligible stake allocs best, bigs allocs -> big stake -> bigs (fst (fst (greedy rs eligible stake allocs best))).
  Proof.
    induction eligible as [|p l IH]; intros stake allocs best Ha Hs; cbn [greedy]; [exact Ha|].
    destruct (ltb (sub (pool_threshold rs (p_pledge p)) (p_stake p)) min_stake_unit) eqn:E; [now apply IH|].
    assert (B : big (pmin stake (sub (pool_threshold rs (p_pledge p)) (p_stake p)))). { unfold pmin. destruct (ltb _ stake); [exact E | exact Hs]. }
    match goal with |- context[ltb ?x min_stake_unit] => destruct (ltb x min_stake_unit) eqn:E2 end; [now apply bigs_set|].
    apply IH; [now apply bigs_set | exact E2].
  Qed.
  Lemma greedy_allocations_bigs rs eligible stake : big stake -> bigs (greedy_allocations rs eligible stake).
  Proof.
    intros Hs. unfold greedy_allocations. destruct (greedy rs eligible stake [] None) as [[allocs rest] best] eqn:E.
    assert (B := greedy_bigs rs eligible stake [] None (fun _ _ J => match J with end) Hs). rewrite E in B. cbn in B. destruct best as [id|]; [|exact B].
    destruct (leb min_stake_unit rest) eqn:L; [|exact B]. apply bigs_set; [exact B|]. unfold big. destruct (ltb rest min_stake_unit) eqn:L2; [|reflexivity].
    rewrite (ol_leb _ O), L2 in L. discriminate.
  Qed.
  Lemma stake_allocations_ok w ag stake w' d : ok w -> ok_agent ag -> big stake -> stake_allocations w ag stake = Ok (w', d) -> ok w' /\ match d with Some d => bigs d | None => True end.
  Proof.
    intros G Ga Hs H. unfold stake_allocations in H. apply bind_ok in H as (rk & _ & H). apply bind_ok in H as (el & _ & H). destruct el as [|e el]; [injection H as <- <-; now split|].
    apply bind_ok in H as (st & Hst & H). apply bind_ok in H as (w1 & H1 & H). apply bind_ok in H as (pools & _ & H). apply bind_ok in H as (w2 & H2 & H). injection H as <- <-.
    assert (Hb : bigs (s_alloc st)). { unfold the_strategy in Hst. destruct (a_strategy ag) eqn:E; [|discriminate]. injection Hst as <-. now apply (proj1 Ga). }
    split; [|now apply greedy_allocations_bigs]. apply (touch_all_ok _ w1 _ _) in H2; [exact H2| |exact Hb]. exact (touch_zero_ok _ w _ _ w1 G H1).
  Qed.
  Lemma find_delegation_move_ok w ag stake w' st : ok w -> ok_agent ag -> find_delegation_move w ag stake = Ok (w', st) -> ok w' /\ bigs (s_alloc st).
  Proof.
    intros G Ga H. unfold find_delegation_move in H. destruct (ltb stake min_stake_unit) eqn:E; [injection H as <- <-; split; [exact G | intros ? ? []]|].
    apply bind_ok in H as ((w1, d) & H1 & H). injection H as <- <-. destruct (stake_allocations_ok _ _ _ _ _ G Ga E H1) as [G1 Hd]. split; [exact G1|]. cbn. destruct d; [exact Hd | intros ? ? []].
  Qed.
  Lemma copy_all_ok l : forall w (d : dict nat) w' d', ok w -> foldM (fun acc e => let '(w, d) := acc in let '(id, r) := e in let! wr := deepcopy w r in let '(w', r') := wr in Ok (w', set d id r')) l (w, d) = Ok (w', d') -> ok w'.
  Proof.
    induction l as [|[id r] l IH]; intros w d w' d' G H; cbn -[deepcopy] in H; [now injection H as <- <-|].
    apply bind_ok in H as ((w1, d1) & H1 & H). apply bind_ok in H1 as ((w2, r2) & H2 & H1). injection H1 as <- <-. apply IH in H; [exact H|].
    unfold deepcopy in H2. apply bind_ok in H2 as (p & Hp & H2). injection H2 as <- <-. apply (ok_alloc w p G). apply deref_get in Hp. exact (proj1 G _ _ Hp).
  Qed.
  Lemma pools_to_keep_ok w ag n w' d : ok w -> pools_to_keep so w ag n = Ok (w', d) -> ok w'.
  Proof.
    intros G H. unfold pools_to_keep in H. apply bind_ok in H as (st & _ & H). destruct (Z.ltb _ _).
    - apply bind_ok in H as (props & _ & H). apply bind_ok in H as (todo & _ & H). exact (copy_all_ok _ _ _ _ _ G H).
    - exact (copy_all_ok _ _ _ _ _ G H).
  Qed.
  Lemma find_operator_move_ok w ag n owned margins w' st : ok w -> ok_agent ag -> find_operator_move w ag n owned margins = Ok (w', st) -> ok w' /\ bigs (s_alloc st).
  Proof.
    intros G Ga H. unfold find_operator_move in H. apply bind_ok in H as (pledge & _ & H). apply bind_ok in H as (cost & _ & H).
    apply bind_ok in H as ((w1, i1) & H1 & H). apply bind_ok in H as ((w2, o2) & H2 & H). apply bind_ok in H as ((w3, d3) & H3 & H). injection H as <- <-.
    assert (G1 : ok w1).
    { refine (fold_keeps _ (fun x => ok (fst x)) owned (w, 0) (w1, i1) _ G H1). intros [x i] e y Ge J. cbn [fst] in *. apply bind_ok in J as (p & J1 & J). apply bind_ok in J as (p' & J2 & J). injection J as <-. cbn.
      apply ok_store; [exact Ge|]. refine (P_adjust _ _ _ _ _ _ _ _ _ J2). apply deref_get in J1. exact (proj1 Ge _ _ J1). }
    assert (G2 : ok w2).
    { refine (fold_keeps _ (fun x => ok (fst x)) _ (w1, owned) (w2, o2) _ G1 H2). intros [x d] i y Ge J. cbn [fst] in *. apply bind_ok in J as (p & J1 & J). injection J as <-. cbn [fst].
      apply (ok_alloc (with_idseq (S (w_idseq x)) x) p); [exact Ge | exact (P_draft _ _ _ _ _ _ _ _ J1)]. }
    unfold find_delegation_for_operator in H3. destruct (ltb _ _); [|injection H3 as <- <-; split; [exact G2 | intros ? ? []]].
    apply bind_ok in H3 as ((w4, s4) & H4 & H3). injection H3 as <- <-. exact (find_delegation_move_ok _ _ _ _ _ G2 Ga H4).
  Qed.
  Lemma choose_ok w ag w' u o : ok w -> ok_agent ag -> choose_pool_strategy so w ag = Ok (w', u, o) -> ok w' /\ ok_strategy o.
  Proof.
    intros G Ga H. unfold choose_pool_strategy in H. apply bind_ok in H as ((t, margins) & _ & H). destruct (Z.ltb 0 t); [|injection H as <- <- <-; split; [exact G | discriminate]].
    apply bind_ok in H as ((w1, d1) & H1 & H). apply bind_ok in H as ((w2, st) & H2 & H). apply bind_ok in H as (x & _ & H). injection H as <- <- <-.
    destruct (find_operator_move_ok _ _ _ _ _ _ _ (pools_to_keep_ok _ _ _ _ _ G H1) Ga H2) as [G2 Hb]. split; [exact G2|]. intros st' [= <-]. exact Hb.
  Qed.
  Lemma update_ok w uid w' : ok w -> update_strategy so w uid = Ok w' -> ok w'.
  Proof.
    intros G H. unfold update_strategy in H. apply bind_ok in H as (ag & Hag & H). assert (Ga : ok_agent ag) by exact (proj2 G _ _ (the_agent_In _ _ _ Hag)).
    assert (K : a_profile ag = Abstainer /\ w' = w \/ exists cu eu w1 del du w2 ou op, find_delegation_move w ag (a_stake ag) = Ok (w1, del) /\ choose_pool_strategy so w1 ag = Ok (w2, ou, op) /\
                w' = put_agent w2 uid (agent_set_new (pick_move (augmented_utility w cu eu) (du, del) (ou, op)) ag)).
    { destruct (a_profile ag) eqn:Ep; [right|right|left; split; [reflexivity | now injection H as <-]];
        (apply bind_ok in H as (st & _ & H); apply bind_ok in H as (cu & _ & H); apply bind_ok in H as (eu & _ & H); apply bind_ok in H as ((w1, del) & H1 & H);
         apply bind_ok in H as (du & _ & H); apply bind_ok in H as (((w2, ou), op) & H2 & H); injection H as <-; exists cu, eu, w1, del, du, w2, ou, op; auto). }
    destruct K as [[_ ->]|(cu & eu & w1 & del & du & w2 & ou & op & H1 & H2 & ->)]; [exact G|].
    destruct (find_delegation_move_ok _ _ _ _ _ G Ga H1) as [G1 Hd]. destruct (choose_ok _ _ _ _ _ G1 Ga H2) as [G2 Ho]. apply ok_put; [exact G2|]. split; [exact (proj1 Ga)|].
    cbn [agent_set_new a_new]. intros st Est. unfold pick_move in Est. cbn [fst snd] in Est. destruct op as [s|].
    - match type of Est with (if ?b then _ else _) = _ => destruct b end; [exact (Ho st Est)|]. destruct (ltb _ du); cbn in Est; [now injection Est as <- | discriminate].
    - destruct (ltb _ du); cbn in Est; [now injection Est as <- | discriminate].
  Qed.

  Lemma bigs_pop d id : bigs d -> bigs (pop d id).
  Proof. intros H i v J. apply In_pop in J. exact (H _ _ J). Qed.
  Lemma remove_one_ok r id w a w' : ok w -> remove_one_delegation r id w a = Ok w' -> ok w'.
  Proof.
    intros G H. unfold remove_one_delegation in H. apply bind_ok in H as (ag & Hag & H). apply bind_ok in H as (st & Hst & H). apply bind_ok in H as (x & _ & H). apply bind_ok in H as (p & Hp & H). injection H as <-.
    assert (Ga : ok_agent ag) by exact (proj2 G _ _ (the_agent_In _ _ _ Hag)). apply ok_store.
    - apply ok_put; [exact G|]. split; [|exact (proj2 Ga)]. cbn. intros st' [= <-]. cbn. apply bigs_pop. unfold the_strategy in Hst. destruct (a_strategy ag) eqn:E; [|discriminate]. injection Hst as <-. now apply (proj1 Ga).
    - apply P_upd; [|now left]. apply deref_get in Hp. exact (proj1 G _ _ Hp).
  Qed.
  Lemma remove_delegations_ok w r w' : ok w -> remove_delegations w r = Ok w' -> ok w'.
  Proof.
    intros G H. unfold remove_delegations in H. apply bind_ok in H as (p & _ & H). apply bind_ok in H as (w1 & H1 & H). injection H as <-.
    assert (G1 : ok w1). { refine (fold_keeps _ ok _ w w1 _ G H1). intros x a y Gx J. exact (remove_one_ok _ _ _ _ _ Gx J). }
    destruct (w_simul w1); [|exact G1]. split; [exact (proj1 G1)|]. intros a ag J. cbn in J. apply in_map_iff in J as ([a0 ag0] & E & J). injection E as <- <-. assert (Ga := proj2 G1 _ _ J). unfold drop_from_new.
    destruct (a_new ag0) as [st|] eqn:En; [|exact Ga]. split; [exact (proj1 Ga)|]. cbn. intros st' [= <-]. cbn. apply bigs_pop. exact (proj2 Ga _ En).
  Qed.
  Lemma close_ok w id w' : ok w -> close_pool w id = Ok w' -> ok w'.
  Proof.
    intros G H. unfold close_pool in H. apply bind_ok in H as (r & _ & H). apply bind_ok in H as (w1 & H1 & H). apply bind_ok in H as (w2 & H2 & H). apply bind_ok in H as (w3 & H3 & H). injection H as <-.
    apply (ok_same _ _ (rank_remove_same _ _ _ H1)) in G. apply (ok_same _ _ (rankm_remove_same _ _ _ H2)) in G. apply (ok_same w3); [now split|]. exact (remove_delegations_ok _ _ _ G H3).
  Qed.
  Lemma update_pool_ok uid w id w' : ok w -> update_pool uid w id = Ok w' -> ok w'.
  Proof.
    intros G H. unfold update_pool in H. apply bind_ok in H as (ag & _ & H). apply bind_ok in H as (new & _ & H). apply bind_ok in H as (r & _ & H). apply bind_ok in H as (p & _ & H).
    apply bind_ok in H as (w1 & H1 & H). assert (G1 : ok w1). { destruct (p_private p && _)%bool; [exact (remove_delegations_ok _ _ _ G H1) | now injection H1 as <-]. }
    apply bind_ok in H as (ag2 & _ & H). apply bind_ok in H as (st & _ & H). apply bind_ok in H as (old & _ & H). apply bind_ok in H as (w3 & H3 & H). apply bind_ok in H as (w4 & H4 & H).
    apply bind_ok in H as (w5 & H5 & H). apply bind_ok in H as (w6 & H6 & H). injection H as <-.
    assert (G2 : ok (with_pools (set (w_pools w1) id r) w1)) by (apply (ok_same w1); [now split | exact G1]).
    apply (ok_same _ _ (rank_remove_same _ _ _ H3)) in G2. apply (ok_same _ _ (rank_add_same _ _ _ H4)) in G2. apply (ok_same _ _ (rankm_remove_same _ _ _ H5)) in G2. apply (ok_same _ _ (rankm_add_same _ _ _ H6)) in G2.
    apply (ok_same w6); [now split | exact G2].
  Qed.
  Lemma open_ok uid w id w' : ok w -> open_pool uid w id = Ok w' -> ok w'.
  Proof.
    intros G H. unfold open_pool in H. apply bind_ok in H as (ag & _ & H). apply bind_ok in H as (st & _ & H). apply bind_ok in H as (r & _ & H). apply bind_ok in H as (w2 & H2 & H).
    apply (ok_same _ _ (rankm_add_same _ _ _ H)). apply (ok_same _ _ (rank_add_same _ _ _ H2)). apply (ok_same w); [now split | exact G].
  Qed.
  Lemma execute_ok w uid w' : ok w -> execute_strategy so w uid = Ok w' -> ok w'.
  Proof.
    intros G H. unfold execute_strategy in H. apply bind_ok in H as (ag & Hag & H). apply bind_ok in H as (old & _ & H). apply bind_ok in H as (new & Hn & H).
    apply bind_ok in H as (w1 & H1 & H). apply bind_ok in H as (w2 & H2 & H). apply bind_ok in H as (w3 & H3 & H). apply bind_ok in H as (w4 & H4 & H). apply bind_ok in H as (ag4 & Hag4 & H).
    assert (Ga : ok_agent ag) by exact (proj2 G _ _ (the_agent_In _ _ _ Hag)).
    assert (Hb : bigs (s_alloc new)). { destruct (a_new ag) eqn:E; [|discriminate]. injection Hn as <-. now apply (proj2 Ga). }
    assert (G1 := touch_zero_ok uid w (fun id => id) _ w1 G H1). assert (G2 := touch_all_ok uid w1 _ w2 G1 Hb H2).
    assert (G3 : ok w3) by (refine (fold_keeps _ ok _ w2 w3 _ G2 H3); intros x a y Gx J; exact (close_ok _ _ _ Gx J)).
    assert (G4 : ok w4) by (refine (fold_keeps _ ok _ w3 w4 _ G3 H4); intros x a y Gx J; exact (update_pool_ok _ _ _ _ Gx J)).
    assert (Ga4 : ok_agent ag4) by exact (proj2 G4 _ _ (the_agent_In _ _ _ Hag4)).
    refine (fold_keeps _ ok _ _ w' _ _ H); [intros x a y Gx J; exact (open_ok _ _ _ _ Gx J)|]. apply ok_put; [exact G4|]. split; cbn; [exact (proj2 Ga4) | discriminate].
  Qed.
  Lemma advance_ok w uid w' : ok w -> advance so w uid = Ok w' -> ok w'.
  Proof.
    intros G H. unfold advance in H. apply bind_ok in H as (ag & _ & H). destruct (a_new ag); [|now injection H as <-]. apply bind_ok in H as (w1 & H1 & H). injection H as <-. apply (ok_same w1); [now split|]. exact (execute_ok _ _ _ G H1).
  Qed.
  Lemma event_ok w e w' : ok w -> do_event so w e = Ok w' -> ok w'.
  Proof.
    intros G H. destruct e as [a|a]; cbn in H; [|exact (advance_ok _ _ _ G H)]. unfold agent_step in H. apply bind_ok in H as (w1 & H1 & H). assert (G1 := update_ok _ _ _ G H1).
    destruct (w_simul w1); [now injection H as <- | exact (advance_ok _ _ _ G1 H)].
  Qed.
  Lemma setting_ok v s s' : ok (s_w s) -> apply_setting v s = Ok s' -> ok (s_w s').
  Proof.
    intros G H. destruct v; cbn in H; try (injection H as <-; exact G). apply bind_ok in H as (r & _ & H). injection H as <-. exact G.
  Qed.
  Lemma change_phase_ok s s' : ok (s_w s) -> change_phase s = Ok s' -> ok (s_w s').
  Proof.
    intros G H. unfold change_phase in H. apply bind_ok in H as (w1 & H1 & H). apply bind_ok in H as (s2 & H2 & H). apply bind_ok in H as (w2 & H3 & H).
    assert (G1 : ok w1). { refine (fold_keeps _ ok _ _ w1 _ _ H1); [|exact G]. intros x r y Gx J. apply bind_ok in J as (x1 & J1 & J). apply (ok_same _ _ (rankm_remove_same _ _ _ J)). exact (ok_same _ _ (rank_remove_same _ _ _ J1) Gx). }
    assert (G2 : ok (s_w s2)). { refine (fold_keeps _ (fun s => ok (s_w s)) _ _ s2 _ _ H2); [|exact G1]. intros x v y Gx J. exact (setting_ok _ _ _ Gx J). }
    assert (G3 : ok w2).
    { refine (fold_keeps _ ok _ _ w2 _ _ H3); [|exact G2]. intros x r y Gx J. unfold rerank_pool in J. apply bind_ok in J as (p & J1 & J). apply bind_ok in J as (p1 & J2 & J). apply bind_ok in J as (x1 & J3 & J).
      apply (ok_same _ _ (rankm_add_same _ _ _ J)). apply (ok_same _ _ (rank_add_same _ _ _ J3)). apply ok_store; [exact Gx|]. refine (P_reprice _ _ _ _ J2). apply deref_get in J1. exact (proj1 Gx _ _ J1). }
    injection H as <-. destruct (phase_settings _ _); exact G3.
  Qed.
  Lemma events_ok evs w w' : ok w -> foldM (do_event so) evs w = Ok w' -> ok w'.
  Proof. intros G H. refine (fold_keeps _ ok evs w w' _ G H). intros x e y Gx J. exact (event_ok _ _ _ Gx J). Qed.
  Lemma sim_step_ok ch s s' : ok (s_w s) -> sim_step so ch s = Ok s' -> ok (s_w s').
  Proof.
    intros G H. apply sim_step_cases in H as [[_ ->]|(_ & w & H & K)]; [exact G|].
    assert (Gw : ok w). { unfold schedule_step in H. apply bind_ok in H as (evs & _ & H). exact (events_ok _ _ _ G H). }
    destruct K as [[_ ->]|[(_ & _ & ->)|[(_ & _ & _ & s4 & H4 & ->)|(_ & _ & _ & ->)]]]; try exact Gw. apply (ok_same (s_w s4)); [now split|]. refine (change_phase_ok _ _ _ H4). exact Gw.
  Qed.
  Lemma reach_ok s0 s : ok (s_w s0) -> reach so s0 s -> ok (s_w s).
  Proof. intros G R. induction R as [|ch s s' R IH H]; [exact G | exact (sim_step_ok _ _ _ IH H)]. Qed.
  Lemma visible_ok s0 w : ok (s_w s0) -> visible so s0 w -> ok w.
  Proof. intros G V. destruct V as [s R|s ch evs1 evs2 w R _ H]; [exact (reach_ok _ _ G R) | exact (events_ok _ _ _ (reach_ok _ _ G R) H)]. Qed.
  Lemma init_ok g profiles stakes costs s0 : init g profiles stakes costs = Ok s0 -> ok (s_w s0).
  Proof.
    intros H. apply init_fresh in H. split.
    - intros r p E. rewrite (fs_heap _ _ _ _ _ H) in E. discriminate.
    - intros a ag J. assert (E : get (w_agents (s_w s0)) a = Some ag). { apply In_get; [|exact J]. rewrite (fs_keys _ _ _ _ _ H). apply seq_NoDup. }
      apply (fs_agents _ _ _ _ _ H) in E as (x & c & p & -> & _). split; cbn; [|discriminate]. intros st E. destruct p; try discriminate; injection E as <-; intros ? ? [].
  Qed.
End AnyOrder.
