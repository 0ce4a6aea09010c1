(** Abstainers (stakeholder_profiles.py:168-174) under every activation order: no pool object ever names one of them as its operator or as a delegator. *)
From Coq Require Import ZArith List Bool Arith Lia Permutation.
From Verif Require Import Num Py Rewards SortedKeyList World Stakeholder Sched Sim Init Reach ListFacts Greedy Inv SimInv.
Import ListNotations.

Section Abstain.
  Context {A : Arith}.
  Variable so : list nat -> list nat -> list nat.
  Notation num := (T A).
  Implicit Types w : world A. Implicit Types p q : pool A. Implicit Types st new : strategy A. Implicit Types ag : agent A. Implicit Types s : sim A.
  (** the abstainers *)
  Variable X : nat -> Prop.
  Definition P p : Prop := ~ X (p_owner p) /\ forall a, In a (keys (p_delegators p)) -> ~ X a.
  (** [U]: the agents that have chosen a move and have not made it yet *)
  Definition ok_agent (U : nat -> Prop) (a : nat) ag : Prop := a_id ag = a /\ (X a <-> a_profile ag = Abstainer) /\ (X a -> a_strategy ag = None /\ a_new ag = None) /\ (~ X a -> a_strategy ag <> None) /\ (U a -> a_new ag <> None).
  Definition ok_heap w : Prop := forall r p, get (w_heap w) r = Some p -> P p.
  Definition ok_agents U w : Prop := forall a ag, get (w_agents w) a = Some ag -> ok_agent U a ag.
  Definition ok_in U w : Prop := ok_heap w /\ ok_agents U w.

  Lemma keys_set_in {V} (d : dict V) k v a : In a (keys (set d k v)) -> a = k \/ In a (keys d).
  Proof. induction d as [|[j x] d IH]; cbn; [intros [->|[]]; auto|]. destruct (Nat.eqb_spec k j) as [->|N]; cbn; intros [E|E]; auto. apply IH in E. tauto. Qed.
  Lemma keys_pop_in {V} (d : dict V) k a : In a (keys (pop d k)) -> In a (keys d).
  Proof. induction d as [|[j x] d IH]; cbn; [auto|]. destruct (Nat.eqb_spec k j) as [->|N]; cbn; [tauto|]. intros [E|E]; auto. Qed.
  Lemma P_upd p v a : P p -> ~ X a -> P (update_delegation v a p).
  Proof.
    intros [H1 H2] Ha. unfold update_delegation. split; cbn [p_owner p_delegators]; [exact H1|]. intros b J. assert (K : In b (keys (set (p_delegators p) a v))) by (destruct (ltb v _); [now apply keys_pop_in in J | exact J]).
    apply keys_set_in in K as [->|K]; [exact Ha | now apply H2].
  Qed.
  Lemma P_adjust w ag pledge cost margins i p p' : P p -> adjust_pool w ag pledge cost margins i p = Ok p' -> P p'.
  Proof.
    intros [H1 H2] H. unfold adjust_pool in H. apply bind_ok in H as (p2 & Hp & H). apply bind_ok in H as (m & _ & H). unfold pool_set_profit in Hp. apply bind_ok in Hp as (pp & _ & Hp). injection Hp as <-. injection H as <-. now split.
  Qed.
  Lemma P_draft w ag pledge cost margins i id p : ~ X (a_id ag) -> draft_pool w ag pledge cost margins i id = Ok p -> P p.
  Proof.
    intros Ha H. unfold draft_pool in H. apply bind_ok in H as (p2 & Hp & H). apply bind_ok in H as (m & _ & H). unfold new_pool in Hp. apply bind_ok in Hp as (pp & _ & Hp). injection Hp as <-. injection H as <-. split; [exact Ha | intros a []].
  Qed.
  Lemma P_reprice rs p p' : P p -> pool_set_profit rs p = Ok p' -> P (pool_set_desirability p').
  Proof. intros [H1 H2] H. unfold pool_set_profit in H. apply bind_ok in H as (pp & _ & H). injection H as <-. now split. Qed.

  Lemma In_set {V} (d : dict V) k v k' v' : In (k', v') (set d k v) -> (k' = k /\ v' = v) \/ In (k', v') d.
  Proof.
    induction d as [|[j x] d IH]; cbn; [intros [[= <- <-]|[]]; auto|]. destruct (Nat.eqb_spec k j) as [->|N]; cbn; intros [E|E]; auto; [injection E as <- <-; auto|]. apply IH in E. tauto.
  Qed.
  Lemma In_pop {V} (d : dict V) k k' v' : In (k', v') (pop d k) -> In (k', v') d.
  Proof. induction d as [|[j x] d IH]; cbn; [auto|]. destruct (Nat.eqb_spec k j) as [->|N]; cbn; [tauto|]. intros [E|E]; auto. Qed.
  Lemma the_agent_In w a ag : the_agent w a = Ok ag -> get (w_agents w) a = Some ag.
  Proof. unfold the_agent. destruct (get (w_agents w) a) eqn:E; [|discriminate]. now intros [= <-]. Qed.
  Lemma deref_get w r p : deref w r = Ok p -> get (w_heap w) r = Some p.
  Proof. unfold deref. destruct (get (w_heap w) r); [|discriminate]. now intros [= <-]. Qed.

  Lemma fold_keeps {U Y} (f : U -> Y -> res U) (Q : U -> Prop) l a b : (forall a x a', Q a -> f a x = Ok a' -> Q a') -> Q a -> foldM f l a = Ok b -> Q b.
  Proof. intros H Qa. apply foldM_inv; [exact Qa|]. intros x y x' _. apply H. Qed.

  Section Upto.
  Variable U : nat -> Prop.
  Notation ok := (ok_in U).
  (** changes which leave pool objects and agents alone *)
  Definition same_objects w w' : Prop := w_heap w' = w_heap w /\ w_agents w' = w_agents w.
  Lemma ok_same w w' : same_objects w w' -> ok w -> ok w'.
  Proof. intros [E1 E2] [H1 H2]. unfold ok_in, ok_heap, ok_agents. now rewrite E1, E2. Qed.
  Lemma rank_add_same w r w' : rank_add w r = Ok w' -> same_objects w w'.
  Proof. unfold rank_add. intros H. apply bind_ok in H as (p & _ & H). now injection H as <-. Qed.
  Lemma rank_remove_same w r w' : rank_remove w r = Ok w' -> same_objects w w'.
  Proof. unfold rank_remove. intros H. apply bind_ok in H as (p & _ & H). apply bind_ok in H as (l & _ & H). now injection H as <-. Qed.
  Lemma rankm_add_same w r w' : rankm_add w r = Ok w' -> same_objects w w'.
  Proof. unfold rankm_add. intros H. apply bind_ok in H as (p & _ & H). apply bind_ok in H as (k & _ & H). now injection H as <-. Qed.
  Lemma rankm_remove_same w r w' : rankm_remove w r = Ok w' -> same_objects w w'.
  Proof. unfold rankm_remove. intros H. apply bind_ok in H as (p & _ & H). apply bind_ok in H as (k & _ & H). apply bind_ok in H as (l & _ & H). now injection H as <-. Qed.
  Lemma ok_store w r p : ok w -> P p -> ok (store w r p).
  Proof.
    intros [H1 H2] Hp. split; [|exact H2]. intros r' p'. cbn. destruct (Nat.eq_dec r' r) as [->|N].
    - rewrite get_set_eq. now intros [= <-].
    - rewrite get_set_ne by congruence. apply H1.
  Qed.
  Lemma ok_alloc w p : ok w -> P p -> ok (fst (alloc w p)).
  Proof.
    intros [H1 H2] Hp. split; [|exact H2]. intros r' p'. cbn. destruct (Nat.eq_dec r' (w_next w)) as [->|N].
    - rewrite get_set_eq. now intros [= <-].
    - rewrite get_set_ne by congruence. apply H1.
  Qed.
  Lemma ok_put w a ag : ok w -> ok_agent U a ag -> ok (put_agent w a ag).
  Proof. intros [H1 H2] Ha. split; [exact H1|]. intros a' ag' J. cbn in J. destruct (Nat.eq_dec a' a) as [->|N]; [rewrite get_set_eq in J; injection J as <-; exact Ha | rewrite get_set_ne in J by congruence; exact (H2 _ _ J)]. Qed.

  Lemma touch_ok uid w id v w' : ok w -> ~ X uid -> touch_delegation uid w id v = Ok w' -> ok w'.
  Proof.
    intros G Hv H. unfold touch_delegation in H. apply bind_ok in H as (r & _ & H). apply bind_ok in H as (w1 & H1 & H). apply bind_ok in H as (p & H2 & H).
    apply (ok_same _ _ (rankm_remove_same _ _ _ H1)) in G. apply (ok_same _ _ (rankm_add_same _ _ _ H)). apply ok_store; [exact G|].
    apply P_upd; [|exact Hv]. apply deref_get in H2. exact (proj1 G _ _ H2).
  Qed.
  Lemma touch_all_ok {Y} uid (f : Y -> nat) (h : Y -> num) w (l : list Y) w' : ok w -> ~ X uid -> foldM (fun w e => touch_delegation uid w (f e) (h e)) l w = Ok w' -> ok w'.
  Proof. intros G Hu H. refine (fold_keeps _ ok _ w w' _ G H). intros x e y Gx J. exact (touch_ok _ _ _ _ _ Gx Hu J). Qed.
  Lemma stake_allocations_ok w ag stake w' d : ok w -> ~ X (a_id ag) -> stake_allocations w ag stake = Ok (w', d) -> ok w'.
  Proof.
    intros G Ga H. unfold stake_allocations in H. apply bind_ok in H as (rk & _ & H). apply bind_ok in H as (el & _ & H). destruct el as [|e el]; [injection H as <- <-; exact G|].
    apply bind_ok in H as (st & Hst & H). apply bind_ok in H as (w1 & H1 & H). apply bind_ok in H as (pools & _ & H). apply bind_ok in H as (w2 & H2 & H). injection H as <- <-.
    exact (touch_all_ok _ _ _ _ _ _ (touch_all_ok _ _ (fun _ => zero) _ _ _ G Ga H1) Ga H2).
  Qed.
  Lemma find_delegation_move_ok w ag stake w' st : ok w -> ~ X (a_id ag) -> find_delegation_move w ag stake = Ok (w', st) -> ok w'.
  Proof.
    intros G Ga H. unfold find_delegation_move in H. destruct (ltb stake min_stake_unit) eqn:E; [injection H as <- <-; exact G|].
    apply bind_ok in H as ((w1, d) & H1 & H). injection H as <- <-. exact (stake_allocations_ok _ _ _ _ _ G Ga H1).
  Qed.
  Lemma copy_all_ok l : forall w (d : dict nat) w' d', ok w -> foldM (fun acc e => let '(w, d) := acc in let '(id, r) := e in let! wr := deepcopy w r in let '(w', r') := wr in Ok (w', set d id r')) l (w, d) = Ok (w', d') -> ok w'.
  Proof.
    induction l as [|[id r] l IH]; intros w d w' d' G H; cbn -[deepcopy] in H; [now injection H as <- <-|].
    apply bind_ok in H as ((w1, d1) & H1 & H). apply bind_ok in H1 as ((w2, r2) & H2 & H1). injection H1 as <- <-. apply IH in H; [exact H|].
    unfold deepcopy in H2. apply bind_ok in H2 as (p & Hp & H2). injection H2 as <- <-. apply (ok_alloc w p G). apply deref_get in Hp. exact (proj1 G _ _ Hp).
  Qed.
  Lemma pools_to_keep_ok w ag n w' d : ok w -> pools_to_keep so w ag n = Ok (w', d) -> ok w'.
  Proof.
    intros G H. unfold pools_to_keep in H. apply bind_ok in H as (st & _ & H). destruct (Z.ltb _ _).
    - apply bind_ok in H as (props & _ & H). apply bind_ok in H as (todo & _ & H). exact (copy_all_ok _ _ _ _ _ G H).
    - exact (copy_all_ok _ _ _ _ _ G H).
  Qed.
  Lemma find_operator_move_ok w ag n owned margins w' st : ok w -> ~ X (a_id ag) -> find_operator_move w ag n owned margins = Ok (w', st) -> ok w'.
  Proof.
    intros G Ga H. unfold find_operator_move in H. apply bind_ok in H as (pledge & _ & H). apply bind_ok in H as (cost & _ & H).
    apply bind_ok in H as ((w1, i1) & H1 & H). apply bind_ok in H as ((w2, o2) & H2 & H). apply bind_ok in H as ((w3, d3) & H3 & H). injection H as <- <-.
    assert (G1 : ok w1).
    { refine (fold_keeps _ (fun x => ok (fst x)) owned (w, 0) (w1, i1) _ G H1). intros [x i] e y Ge J. cbn [fst] in *. apply bind_ok in J as (p & J1 & J). apply bind_ok in J as (p' & J2 & J). injection J as <-. cbn.
      apply ok_store; [exact Ge|]. refine (P_adjust _ _ _ _ _ _ _ _ _ J2). apply deref_get in J1. exact (proj1 Ge _ _ J1). }
    assert (G2 : ok w2).
    { refine (fold_keeps _ (fun x => ok (fst x)) _ (w1, owned) (w2, o2) _ G1 H2). intros [x d] i y Ge J. cbn [fst] in *. apply bind_ok in J as (p & J1 & J). injection J as <-. cbn [fst].
      apply (ok_alloc (with_idseq (S (w_idseq x)) x) p); [exact Ge | exact (P_draft _ _ _ _ _ _ _ _ Ga J1)]. }
    unfold find_delegation_for_operator in H3. destruct (ltb _ _); [|injection H3 as <- <-; exact G2].
    apply bind_ok in H3 as ((w4, s4) & H4 & H3). injection H3 as <- <-. exact (find_delegation_move_ok _ _ _ _ _ G2 Ga H4).
  Qed.
  Lemma choose_ok w ag w' u o : ok w -> ~ X (a_id ag) -> choose_pool_strategy so w ag = Ok (w', u, o) -> ok w'.
  Proof.
    intros G Ga H. unfold choose_pool_strategy in H. apply bind_ok in H as ((t, margins) & _ & H). destruct (Z.ltb 0 t); [|injection H as <- <- <-; exact G].
    apply bind_ok in H as ((w1, d1) & H1 & H). apply bind_ok in H as ((w2, st) & H2 & H). apply bind_ok in H as (x & _ & H). injection H as <- <- <-.
    exact (find_operator_move_ok _ _ _ _ _ _ _ (pools_to_keep_ok _ _ _ _ _ G H1) Ga H2).
  Qed.
  Lemma update_ok w uid w' : ok w -> ~ U uid -> update_strategy so w uid = Ok w' -> ok w'.
  Proof.
    intros G Nu H. unfold update_strategy in H. apply bind_ok in H as (ag & Hag & H). assert (Ga : ok_agent U uid ag) by exact (proj2 G _ _ (the_agent_In _ _ _ Hag)).
    assert (K : a_profile ag = Abstainer /\ w' = w \/ a_profile ag <> Abstainer /\ exists cu eu w1 del du w2 ou op, find_delegation_move w ag (a_stake ag) = Ok (w1, del) /\ choose_pool_strategy so w1 ag = Ok (w2, ou, op) /\
                w' = put_agent w2 uid (agent_set_new (pick_move (augmented_utility w cu eu) (du, del) (ou, op)) ag)).
    { destruct (a_profile ag) eqn:Ep; [right|right|left; split; [reflexivity | now injection H as <-]]; (split; [discriminate|]);
        (apply bind_ok in H as (st & _ & H); apply bind_ok in H as (cu & _ & H); apply bind_ok in H as (eu & _ & H); apply bind_ok in H as ((w1, del) & H1 & H);
         apply bind_ok in H as (du & _ & H); apply bind_ok in H as (((w2, ou), op) & H2 & H); injection H as <-; exists cu, eu, w1, del, du, w2, ou, op; auto). }
    destruct K as [[_ ->]|(Np & cu & eu & w1 & del & du & w2 & ou & op & H1 & H2 & ->)]; [exact G|]. destruct Ga as (Ei & Ex & Es & En & _).
    assert (Nx : ~ X (a_id ag)) by (rewrite Ei; intros C; now apply Ex in C).
    apply ok_put; [exact (choose_ok _ _ _ _ _ (find_delegation_move_ok _ _ _ _ _ G Nx H1) Nx H2)|]. split; [exact Ei|]. split; [exact Ex|]. rewrite Ei in Nx. split; [contradiction|]. split; [exact En | contradiction].
  Qed.

  Lemma remove_one_ok r id w a w' : ok w -> remove_one_delegation r id w a = Ok w' -> ok w'.
  Proof.
    intros G H. unfold remove_one_delegation in H. apply bind_ok in H as (ag & Hag & H). apply bind_ok in H as (st & Hst & H). apply bind_ok in H as (x & _ & H). apply bind_ok in H as (p & Hp & H). injection H as <-.
    destruct (proj2 G _ _ (the_agent_In _ _ _ Hag)) as (Ei & Ex & Es & _ & Eu). assert (Nx : ~ X a) by (intros C; destruct (Es C) as [C' _]; unfold the_strategy in Hst; rewrite C' in Hst; discriminate). apply ok_store.
    - apply ok_put; [exact G|]. split; [exact Ei|]. split; [exact Ex|]. split; [contradiction|]. split; [discriminate | exact Eu].
    - apply P_upd; [|exact Nx]. apply deref_get in Hp. exact (proj1 G _ _ Hp).
  Qed.
  Lemma remove_delegations_ok w r w' : ok w -> remove_delegations w r = Ok w' -> ok w'.
  Proof.
    intros G H. unfold remove_delegations in H. apply bind_ok in H as (p & _ & H). apply bind_ok in H as (w1 & H1 & H). injection H as <-.
    assert (G1 : ok w1). { refine (fold_keeps _ ok _ w w1 _ G H1). intros x a y Gx J. exact (remove_one_ok _ _ _ _ _ Gx J). }
    destruct (w_simul w1); [|exact G1]. split; [exact (proj1 G1)|]. intros a ag J. cbn in J. rewrite (get_map_snd (drop_from_new (p_id p))) in J. destruct (get (w_agents w1) a) as [ag0|] eqn:E; [|discriminate]. injection J as <-. destruct (proj2 G1 _ _ E) as (Ei & Ex & Es & En & Eu). unfold drop_from_new.
    destruct (a_new ag0) as [st|] eqn:Ew; [|now repeat split; try apply Ex; try apply Es; rewrite ?Ew]. split; [exact Ei|]. split; [exact Ex|]. split; [intros C; destruct (Es C) as [_ C']; discriminate|]. split; [exact En | discriminate].
  Qed.
  Lemma close_ok w id w' : ok w -> close_pool w id = Ok w' -> ok w'.
  Proof.
    intros G H. unfold close_pool in H. apply bind_ok in H as (r & _ & H). apply bind_ok in H as (w1 & H1 & H). apply bind_ok in H as (w2 & H2 & H). apply bind_ok in H as (w3 & H3 & H). injection H as <-.
    apply (ok_same _ _ (rank_remove_same _ _ _ H1)) in G. apply (ok_same _ _ (rankm_remove_same _ _ _ H2)) in G. apply (ok_same w3); [now split|]. exact (remove_delegations_ok _ _ _ G H3).
  Qed.
  Lemma update_pool_ok uid w id w' : ok w -> update_pool uid w id = Ok w' -> ok w'.
  Proof.
    intros G H. unfold update_pool in H. apply bind_ok in H as (ag & _ & H). apply bind_ok in H as (new & _ & H). apply bind_ok in H as (r & _ & H). apply bind_ok in H as (p & _ & H).
    apply bind_ok in H as (w1 & H1 & H). assert (G1 : ok w1). { destruct (p_private p && _)%bool; [exact (remove_delegations_ok _ _ _ G H1) | now injection H1 as <-]. }
    apply bind_ok in H as (ag2 & _ & H). apply bind_ok in H as (st & _ & H). apply bind_ok in H as (old & _ & H). apply bind_ok in H as (w3 & H3 & H). apply bind_ok in H as (w4 & H4 & H).
    apply bind_ok in H as (w5 & H5 & H). apply bind_ok in H as (w6 & H6 & H). injection H as <-.
    assert (G2 : ok (with_pools (set (w_pools w1) id r) w1)) by (apply (ok_same w1); [now split | exact G1]).
    apply (ok_same _ _ (rank_remove_same _ _ _ H3)) in G2. apply (ok_same _ _ (rank_add_same _ _ _ H4)) in G2. apply (ok_same _ _ (rankm_remove_same _ _ _ H5)) in G2. apply (ok_same _ _ (rankm_add_same _ _ _ H6)) in G2.
    apply (ok_same w6); [now split | exact G2].
  Qed.
  Lemma open_ok uid w id w' : ok w -> open_pool uid w id = Ok w' -> ok w'.
  Proof.
    intros G H. unfold open_pool in H. apply bind_ok in H as (ag & _ & H). apply bind_ok in H as (st & _ & H). apply bind_ok in H as (r & _ & H). apply bind_ok in H as (w2 & H2 & H).
    apply (ok_same _ _ (rankm_add_same _ _ _ H)). apply (ok_same _ _ (rank_add_same _ _ _ H2)). apply (ok_same w); [now split | exact G].
  Qed.
  End Upto.
  Notation none := (fun _ : nat => False).
  Notation ok := (ok_in none).
  Lemma execute_ok w uid w' : ok w -> execute_strategy so w uid = Ok w' -> ok w'.
  Proof.
    intros G H. unfold execute_strategy in H. apply bind_ok in H as (ag & Hag & H). apply bind_ok in H as (old & _ & H). apply bind_ok in H as (new & Hn & H).
    apply bind_ok in H as (w1 & H1 & H). apply bind_ok in H as (w2 & H2 & H). apply bind_ok in H as (w3 & H3 & H). apply bind_ok in H as (w4 & H4 & H). apply bind_ok in H as (ag4 & Hag4 & H).
    destruct (proj2 G _ _ (the_agent_In _ _ _ Hag)) as (_ & _ & Es & _). assert (Nx : ~ X uid) by (intros C; destruct (Es C) as [_ C']; rewrite C' in Hn; discriminate).
    assert (G0 : ok_in (eq uid) w).
    { split; [exact (proj1 G)|]. intros a ag' E. destruct (proj2 G _ _ E) as (K1 & K2 & K3 & K4 & _). split; [exact K1|]. split; [exact K2|]. split; [exact K3|]. split; [exact K4|]. intros <-.
      apply the_agent_In in Hag. rewrite Hag in E. injection E as <-. intros C. rewrite C in Hn. discriminate. }
    assert (G1 := touch_all_ok _ uid (fun id => id) (fun _ => zero) w _ w1 G0 Nx H1). assert (G2 := touch_all_ok _ uid fst snd w1 _ w2 G1 Nx H2).
    assert (G3 : ok_in (eq uid) w3) by (refine (fold_keeps _ (ok_in (eq uid)) _ w2 w3 _ G2 H3); intros x a y Gx J; exact (close_ok _ _ _ _ Gx J)).
    assert (G4 : ok_in (eq uid) w4) by (refine (fold_keeps _ (ok_in (eq uid)) _ w3 w4 _ G3 H4); intros x a y Gx J; exact (update_pool_ok _ _ _ _ _ Gx J)).
    destruct (proj2 G4 _ _ (the_agent_In _ _ _ Hag4)) as (Ei4 & Ex4 & _ & _ & Eu4).
    refine (fold_keeps _ ok _ _ w' _ _ H); [intros x a y Gx J; exact (open_ok _ _ _ _ _ Gx J)|]. split; [exact (proj1 G4)|]. intros a ag' E. cbn in E. destruct (Nat.eq_dec a uid) as [->|N].
    - rewrite get_set_eq in E. injection E as <-. split; [exact Ei4|]. split; [exact Ex4|]. split; [contradiction|]. split; [intros _; exact (Eu4 eq_refl) | intros []].
    - rewrite get_set_ne in E by congruence. destruct (proj2 G4 _ _ E) as (K1 & K2 & K3 & K4 & _). split; [exact K1|]. split; [exact K2|]. split; [exact K3|]. split; [exact K4 | intros []].
  Qed.
  Lemma advance_ok w uid w' : ok w -> advance so w uid = Ok w' -> ok w'.
  Proof.
    intros G H. unfold advance in H. apply bind_ok in H as (ag & _ & H). destruct (a_new ag); [|now injection H as <-]. apply bind_ok in H as (w1 & H1 & H). injection H as <-. apply (ok_same _ w1); [now split|]. exact (execute_ok _ _ _ G H1).
  Qed.
  Lemma event_ok w e w' : ok w -> do_event so w e = Ok w' -> ok w'.
  Proof.
    intros G H. destruct e as [a|a]; cbn in H; [|exact (advance_ok _ _ _ G H)]. unfold agent_step in H. apply bind_ok in H as (w1 & H1 & H). assert (G1 := update_ok _ _ _ _ G (fun C => C) H1).
    destruct (w_simul w1); [now injection H as <- | exact (advance_ok _ _ _ G1 H)].
  Qed.
  Lemma setting_ok v s s' : ok (s_w s) -> apply_setting v s = Ok s' -> ok (s_w s').
  Proof.
    intros G H. destruct v; cbn in H; try (injection H as <-; exact G). apply bind_ok in H as (r & _ & H). injection H as <-. exact G.
  Qed.
  Lemma change_phase_ok s s' : ok (s_w s) -> change_phase s = Ok s' -> ok (s_w s').
  Proof.
    intros G H. unfold change_phase in H. apply bind_ok in H as (w1 & H1 & H). apply bind_ok in H as (s2 & H2 & H). apply bind_ok in H as (w2 & H3 & H).
    assert (G1 : ok w1). { refine (fold_keeps _ ok _ _ w1 _ _ H1); [|exact G]. intros x r y Gx J. apply bind_ok in J as (x1 & J1 & J). apply (ok_same _ _ _ (rankm_remove_same _ _ _ J)). exact (ok_same _ _ _ (rank_remove_same _ _ _ J1) Gx). }
    assert (G2 : ok (s_w s2)). { refine (fold_keeps _ (fun s => ok (s_w s)) _ _ s2 _ _ H2); [|exact G1]. intros x v y Gx J. exact (setting_ok _ _ _ Gx J). }
    assert (G3 : ok w2).
    { refine (fold_keeps _ ok _ _ w2 _ _ H3); [|exact G2]. intros x r y Gx J. unfold rerank_pool in J. apply bind_ok in J as (p & J1 & J). apply bind_ok in J as (p1 & J2 & J). apply bind_ok in J as (x1 & J3 & J).
      apply (ok_same _ _ _ (rankm_add_same _ _ _ J)). apply (ok_same _ _ _ (rank_add_same _ _ _ J3)). apply ok_store; [exact Gx|]. refine (P_reprice _ _ _ _ J2). apply deref_get in J1. exact (proj1 Gx _ _ J1). }
    injection H as <-. destruct (phase_settings _ _); exact G3.
  Qed.
  Lemma events_ok evs w w' : ok w -> foldM (do_event so) evs w = Ok w' -> ok w'.
  Proof. intros G H. refine (fold_keeps _ ok evs w w' _ G H). intros x e y Gx J. exact (event_ok _ _ _ Gx J). Qed.
  Lemma sim_step_ok ch s s' : ok (s_w s) -> sim_step so ch s = Ok s' -> ok (s_w s').
  Proof.
    intros G H. apply sim_step_cases in H as [[_ ->]|(_ & w & H & K)]; [exact G|].
    assert (Gw : ok w). { unfold schedule_step in H. apply bind_ok in H as (evs & _ & H). exact (events_ok _ _ _ G H). }
    destruct K as [[_ ->]|[(_ & _ & ->)|[(_ & _ & _ & s4 & H4 & ->)|(_ & _ & _ & ->)]]]; try exact Gw. apply (ok_same _ (s_w s4)); [now split|]. refine (change_phase_ok _ _ _ H4). exact Gw.
  Qed.
  Lemma reach_ok s0 s : ok (s_w s0) -> reach so s0 s -> ok (s_w s).
  Proof. intros G R. induction R as [|ch s s' R IH H]; [exact G | exact (sim_step_ok _ _ _ IH H)]. Qed.
  Lemma visible_ok s0 w : ok (s_w s0) -> visible so s0 w -> ok w.
  Proof. intros G V. destruct V as [s R|s ch evs1 evs2 w R _ H]; [exact (reach_ok _ _ G R) | exact (events_ok _ _ _ (reach_ok _ _ G R) H)]. Qed.
End Abstain.

Lemma init_abstain {A : Arith} g profiles stakes costs (s0 : sim A) : init g profiles stakes costs = Ok s0 -> ok_in (fun a => nth_error profiles a = Some Abstainer) (fun _ => False) (s_w s0).
Proof.
  intros H. apply init_fresh in H. split.
  - intros r p E. rewrite (fs_heap _ _ _ _ _ H) in E. discriminate.
  - intros a ag E. apply (fs_agents _ _ _ _ _ H) in E as (x & c & p & -> & _ & Ep). split; [reflexivity|]. split; [rewrite Ep; cbn; split; congruence|]. split; [|split; [|intros []]].
    + intros E. rewrite Ep in E. injection E as ->. now split.
    + intros N. destruct p; [discriminate.. |]. now exfalso; apply N.
Qed.

(** * C82 *)
(** Whatever the arithmetic, the order of activation and the parameters of later phases: an agent with the third profile never operates a pool, never delegates, and no
    pool, open, closed or only considered, ever names it. *)
Theorem C82_abstainers_stay_out : forall (A : Arith) so g profiles stakes costs (s0 : sim A) w a, init g profiles stakes costs = Ok s0 -> visible so s0 w ->
  nth_error profiles a = Some Abstainer ->
  (forall id r p, get (w_pools w) id = Some r -> get (w_heap w) r = Some p -> p_owner p <> a /\ get (p_delegators p) a = None) /\
  (forall ag, get (w_agents w) a = Some ag -> a_profile ag = Abstainer /\ a_strategy ag = None /\ a_new ag = None).
Proof.
  intros A so g profiles stakes costs s0 w a H V E. destruct (visible_ok so _ s0 w (init_abstain _ _ _ _ _ H) V) as [K1 K2]. split.
  - intros id r p _ G. destruct (K1 r p G) as [J1 J2]. split; [intros C; apply J1; now rewrite C|]. destruct (get (p_delegators p) a) as [v|] eqn:Ed; [|reflexivity]. exfalso. apply (J2 a); [|exact E].
    apply get_In in Ed. apply in_map_iff. now exists (a, v).
  - intros ag G. destruct (K2 a ag G) as (_ & J1 & J2 & _). split; [now apply J1 | exact (J2 E)].
Qed.
(** All other agents always have a strategy: they can be told apart by it, as the exported table of stakeholders does. *)
Theorem C82_only_abstainers_have_no_strategy : forall (A : Arith) so g profiles stakes costs (s0 : sim A) w a ag, init g profiles stakes costs = Ok s0 -> visible so s0 w ->
  get (w_agents w) a = Some ag -> a_strategy ag = None <-> nth_error profiles a = Some Abstainer.
Proof.
  intros A so g profiles stakes costs s0 w a ag H V G. destruct (visible_ok so _ s0 w (init_abstain _ _ _ _ _ H) V) as [_ K2]. destruct (K2 a ag G) as (_ & J1 & J2 & J3 & _).
  split; [|now apply J2]. intros N. destruct (nth_error profiles a) as [[| |]|]; try reflexivity; exfalso; now apply J3.
Qed.
