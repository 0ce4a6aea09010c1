(** Executing a strategy preserves the invariant of Inv.v. *)
From Coq Require Import ZArith List Bool Arith Lia Permutation Sorted.
From Verif Require Import Num Py Rewards SortedKeyList World Stakeholder ListFacts SLFacts Inv.
Import ListNotations.
Open Scope nat_scope.

Section Exec.
  Context {A : Arith} (O : OrdLaws A) (MP : ltb (zero (a := A)) min_stake_unit = true).
  Variable NP : rss A -> pool A -> Prop.
  Variable PVT : Prop.
  Hypothesis NP_upd : forall rs p v a, NP rs p -> NoDup (keys (p_delegators p)) -> v = zero \/ ltb v min_stake_unit = false -> NP rs (update_delegation v a p).
  Hypothesis NP_private : PVT -> forall rs p, NP rs p -> NoDup (keys (p_delegators p)) -> ltb (p_pledge p) (p_stake p) = false ->
    (forall a v, get (p_delegators p) a = Some v -> ltb v min_stake_unit = false) -> p_delegators p = [].
  Implicit Types w : world A. Implicit Types p q : pool A. Implicit Types st new : strategy A.
  Notation Inv := (Inv NP PVT).
  Notation num := (T A).
  Notation K1 := (fun p : pool A => Ok (pool_key p)).

  Lemma rank_remove_ok (w : world A) r w' : rank_remove w r = Ok w' -> exists p l, get (w_heap w) r = Some p /\ sl_remove (pool_key p) (Some r) (w_rank w) = Ok l /\ w' = with_rank l w.
  Proof. unfold rank_remove. intros H. apply bind_ok in H as (p & H1 & H). apply of_option_ok in H1. apply bind_ok in H as (l & H2 & [= <-]). eauto. Qed.
  Lemma rankm_remove_ok (w : world A) r w' : rankm_remove w r = Ok w' -> exists p k l, get (w_heap w) r = Some p /\ pool_key_myopic (w_rss w) p = Ok k /\ sl_remove k (Some r) (w_rankm w) = Ok l /\ w' = with_rankm l w.
  Proof. unfold rankm_remove. intros H. apply bind_ok in H as (p & H1 & H). apply of_option_ok in H1. apply bind_ok in H as (k & H2 & H). apply bind_ok in H as (l & H3 & [= <-]). exists p, k, l. auto. Qed.
  Lemma rank_add_ok (w : world A) r w' : rank_add w r = Ok w' -> exists p, get (w_heap w) r = Some p /\ w' = with_rank (sl_add (pool_key p) (Some r) (w_rank w)) w.
  Proof. unfold rank_add. intros H. apply bind_ok in H as (p & H1 & [= <-]). apply of_option_ok in H1. eauto. Qed.
  Lemma rankm_add_ok (w : world A) r w' : rankm_add w r = Ok w' -> exists p k, get (w_heap w) r = Some p /\ pool_key_myopic (w_rss w) p = Ok k /\ w' = with_rankm (sl_add k (Some r) (w_rankm w)) w.
  Proof. unfold rankm_add. intros H. apply bind_ok in H as (p & H1 & H). apply of_option_ok in H1. apply bind_ok in H as (k & H2 & [= <-]). eauto. Qed.

  (** the maps agree with the recorded strategies of all agents but [uid] *)
  Definition ghost (uid : nat) (al : nat -> nat -> option num) (ow : nat -> nat -> option nat) (w : world A) : Prop :=
    forall a id, a <> uid -> al a id = al_of w a id /\ ow a id = ow_of w a id.

  (** parts of the state no step of an agent changes *)
  Definition same_params (w w' : world A) : Prop :=
    w_rss w' = w_rss w /\ w_rel w' = w_rel w /\ w_abs w' = w_abs w /\ w_phi w' = w_phi w /\ w_simul w' = w_simul w /\ w_total w' = w_total w /\ w_idle w' = w_idle w.
  Lemma same_params_refl w : same_params w w.  Proof. repeat split. Qed.
  Lemma same_params_trans w w1 w2 : same_params w w1 -> same_params w1 w2 -> same_params w w2.
  Proof. unfold same_params. intuition congruence. Qed.

  (** ** close_pool *)
  Lemma close_ok w id w' : close_pool w id = Ok w' ->
    exists r p k l lm w3, get (w_pools w) id = Some r /\ get (w_heap w) r = Some p /\ sl_remove (pool_key p) (Some r) (w_rank w) = Ok l /\
      pool_key_myopic (w_rss w) p = Ok k /\ sl_remove k (Some r) (w_rankm w) = Ok lm /\
      remove_delegations (with_rankm lm (with_rank l w)) r = Ok w3 /\ w' = with_pools (pop (w_pools w3) id) w3.
  Proof.
    unfold close_pool. intros H. apply bind_ok in H as (r & H1 & H). apply of_option_ok in H1. apply bind_ok in H as (w1 & H2 & H).
    destruct (rank_remove_ok _ _ _ H2) as (p & l & G & Hl & ->). apply bind_ok in H as (w2 & H3 & H).
    destruct (rankm_remove_ok _ _ _ H3) as (p' & k & lm & G' & Hk & Hlm & ->). cbn in G', Hlm, Hk. rewrite G in G'. injection G' as <-.
    apply bind_ok in H as (w3 & H4 & [= <-]). exists r, p, k, l, lm, w3. repeat split; auto.
  Qed.
  Lemma close_inv m al ow uid w id w' r : Inv m al ow w -> agents_ok w -> w_simul w = false -> ghost uid al ow w -> ow uid id = Some r ->
    close_pool w id = Ok w' ->
    Inv m (drop2 al id) (drop2 ow id) w' /\ agents_ok w' /\ ghost uid (drop2 al id) (drop2 ow id) w' /\ same_params w w' /\
    w_pools w' = pop (w_pools w) id /\ w_next w' = w_next w /\ w_idseq w' = w_idseq w /\ (forall r', r' <> r -> get (w_heap w') r' = get (w_heap w) r') /\
    get (w_agents w') uid = get (w_agents w) uid /\ agents_rel w w'.
  Proof.
    intros I AO Hs Gh Ho H. destruct (close_ok _ _ _ H) as (r0 & p & k & l & lm & w3 & G1 & G2 & Hl & Hk & Hlm & Hrd & ->).
    destruct (i_own _ _ _ _ _ _ I _ _ _ Ho) as (G1' & Hown). replace r0 with r in * by congruence. clear G1'.
    destruct (i_reg _ _ _ _ _ _ I _ _ G1) as (p0 & G2' & Eid & Hid & Nd & How & Hnp & Hpv). rewrite G2 in G2'. injection G2' as <-.
    assert (Hou : p_owner p = uid) by now apply Hown.
    destruct (remove_delegations_spec MP NP NP_upd (with_rankm lm (with_rank l w)) r p w3 AO Hs G2 Nd Hrd) as (p' & RD & Ed).
    destruct RD as [D1 D2 D3 D4 D5 D6 D7 D8 D9 D10 D11].
    assert (Hdel : forall a v, get (p_delegators p) a = Some v <-> al a id = Some v) by (intros; eapply i_del; eassumption).
    assert (Hself : al uid id = None).
    { destruct (al uid id) eqn:E; [|reflexivity]. destruct (i_al _ _ _ _ _ _ I _ _ _ E) as (_ & r1 & p1 & ? & ? & Hne). congruence. }
    assert (Huid : ~ In uid (keys (p_delegators p))).
    { intros J. apply get_Some_key in J as (v & J). apply Hdel in J. congruence. }
    assert (Eal : forall a id', al_of w3 a id' = if inb a (keys (p_delegators p)) && Nat.eqb id' id then None else al_of w a id').
    { intros a id'. rewrite D9. rewrite Eid. reflexivity. }
    assert (Row : forall a id', ow_of w3 a id' = ow_of w a id') by (intros; exact (agents_rel_ow _ _ a id' D8)).
    assert (Eh : forall id' r', get (w_pools w) id' = Some r' -> id' <> id -> get (w_heap w3) r' = get (w_heap w) r').
    { intros id' r' G N. apply D2. intros ->. apply N. eapply Inv_ref_id; eassumption. }
    assert (Np := i_nd _ _ _ _ _ _ I).
    assert (Pv : Permutation (values (w_pools w)) (r :: values (pop (w_pools w) id))) by (apply (values_perm _ ((id, r) :: _)); now apply pop_perm).
    assert (ND : NoDup (r :: values (pop (w_pools w) id))) by (eapply Permutation_NoDup; [exact Pv | eapply Inv_refs_nodup; eassumption]).
    assert (Ep : w_pools w3 = w_pools w) by now rewrite D1. rewrite Ep.
    assert (Efr : w_rss w3 = w_rss w /\ w_next w3 = w_next w /\ w_idseq w3 = w_idseq w /\ w_rank w3 = l /\ w_rankm w3 = lm) by (rewrite D1; repeat split).
    destruct Efr as (Erss & Enext & Eseq & Erank & Erankm).
    assert (GP : forall id' r', get (pop (w_pools w) id) id' = Some r' -> id' <> id /\ get (w_pools w) id' = Some r').
    { intros id' r'. rewrite get_pop by assumption. destruct (Nat.eqb_spec id id'); [discriminate|]. now split; [congruence|]. }
    split; [|split; [exact D10|split; [|split; [|split; [|split; [|split; [|split; [|split]]]]]]]].
    - assert (I' := I). destruct I as [I1 I2 I3 I4 I5 I6 I7 I8].
      constructor; cbn [w_pools w_heap w_next w_rss w_idseq w_rank w_rankm with_pools]; rewrite ?Erss, ?Enext, ?Eseq, ?Erank, ?Erankm.
      + now apply NoDup_pop.
      + intros r' p1 G. destruct (Nat.eq_dec r' r) as [->|N]; [eapply I2; eassumption|]. rewrite D2 in G by assumption. eapply I2; eassumption.
      + intros id' r' G. destruct (GP _ _ G) as [N G']. destruct (I3 id' r' G') as (p1 & J1 & J2 & J3 & J4 & J5 & J6). exists p1. rewrite (Eh id' r' G' N).
        unfold drop2. rewrite (proj2 (Nat.eqb_neq id' id)) by assumption. auto 10.
      + intros a id' r' J. unfold drop2 in J. destruct (Nat.eqb_spec id' id) as [|N]; [discriminate|]. destruct (I4 a id' r' J) as (J1 & J2).
        rewrite get_pop, (proj2 (Nat.eqb_neq id id')) by (assumption || congruence). split; [assumption|]. rewrite (Eh id' r' J1 N). assumption.
      + intros id' r' p1 a v G J. destruct (GP _ _ G) as [N G']. rewrite (Eh id' r' G' N) in J. unfold drop2. rewrite (proj2 (Nat.eqb_neq id' id)) by assumption. eapply I5; eassumption.
      + intros a id' v J. unfold drop2 in J. destruct (Nat.eqb_spec id' id) as [|N]; [discriminate|]. destruct (I6 a id' v J) as (J1 & r1 & p1 & J2 & J3 & J4).
        split; [assumption|]. exists r1, p1. rewrite get_pop, (proj2 (Nat.eqb_neq id id')), (Eh id' r1 J2 N) by (assumption || congruence). auto.
      + destruct (rank_ok_remove _ _ _ _ _ _ _ _ I7 Hl) as (refs' & P & R).
        assert (P' : Permutation refs' (values (pop (w_pools w) id))) by (apply (Permutation_cons_inv (a := r)); rewrite <- P; exact Pv).
        eapply rank_ok_perm; [exact P'|]. eapply rank_ok_frame; [|exact R]. intros r' p1 Hr G. exists p1. rewrite D2; [now split|].
        intros ->. apply (Permutation_in _ P') in Hr. now apply NoDup_cons_iff in ND.
      + destruct (rank_ok_remove _ _ _ _ _ _ _ _ I8 Hlm) as (refs' & P & R).
        assert (P' : Permutation refs' (values (pop (w_pools w) id))) by (apply (Permutation_cons_inv (a := r)); rewrite <- P; exact Pv).
        eapply rank_ok_perm; [exact P'|]. eapply rank_ok_frame; [|exact R]. intros r' p1 Hr G. exists p1. rewrite D2; [now split|].
        intros ->. apply (Permutation_in _ P') in Hr. now apply NoDup_cons_iff in ND.
    - intros a id' Ha. destruct (Gh a id' Ha) as [Ga Go]. change (al_of (with_pools (pop (w_pools w) id) w3) a id') with (al_of w3 a id').
      change (ow_of (with_pools (pop (w_pools w) id) w3) a id') with (ow_of w3 a id'). rewrite Eal, Row. unfold drop2. destruct (Nat.eqb_spec id' id).
      + subst id'. split.
        * destruct (inb a (keys (p_delegators p))) eqn:E; cbn [andb]; [reflexivity|]. rewrite <- Ga. symmetry. apply inb_false in E.
          destruct (al a id) eqn:E'; [|reflexivity]. exfalso. apply E. apply get_Some_key. exists t. now apply Hdel.
        * rewrite <- Go. destruct (ow a id) eqn:E; [|reflexivity]. exfalso. destruct (i_own _ _ _ _ _ _ I _ _ _ E) as (J1 & J2). apply Ha.
          rewrite <- Hou. symmetry. apply J2. congruence.
      + rewrite andb_false_r. now split.
    - unfold same_params. cbn. rewrite D1. repeat split.
    - reflexivity.
    - exact Enext.
    - exact Eseq.
    - exact D2.
    - cbn. now rewrite D11.
    - exact D8.
  Qed.

  (** ** update_pool *)
  (** a pool object drafted for [id], not yet registered *)
  Definition own_st (w : world A) (uid : nat) (st new : strategy A) (id : nat) : Prop :=
    exists r p, get (s_owned new) id = Some r /\ (forall id', get (w_pools w) id' <> Some r) /\ get (w_heap w) r = Some p /\ p_id p = id /\ p_owner p = uid /\
      NP (w_rss w) p /\ NoDup (keys (p_delegators p)) /\
      match get (s_owned st) id with
      | Some r0 => get (w_pools w) id = Some r0 /\ exists p0, get (w_heap w) r0 = Some p0 /\ forall b, get (p_delegators p) b = get (p_delegators p0) b
      | None => get (w_pools w) id = None /\ 1 <= id <= w_idseq w /\ p_delegators p = []
      end.

  (** replacing the registered object of a pool *)
  Lemma swap_inv m al ow uid w id r0 r p al' w2 w3 w4 w' :
    Inv m al ow w -> ow uid id = Some r0 ->
    (* the world in which delegations of the new object may have been removed *)
    w2 = with_agents (w_agents w2) (with_heap (w_heap w2) w) ->
    (forall r', r' <> r -> get (w_heap w2) r' = get (w_heap w) r') -> get (w_heap w2) r = Some p -> (forall id', get (w_pools w) id' <> Some r) ->
    p_id p = id -> p_owner p = uid -> NP (w_rss w) p -> NoDup (keys (p_delegators p)) -> (PVT -> p_private p = true -> p_delegators p = []) -> r < w_next w ->
    (forall a id', id' <> id -> al' a id' = al a id') -> (forall a v, get (p_delegators p) a = Some v <-> al' a id = Some v) ->
    (forall a v, al' a id = Some v -> al a id = Some v) ->
    rank_remove (with_pools (set (w_pools w2) id r) w2) r0 = Ok w3 -> rank_add w3 r = Ok w4 ->
    (let! w5 := rankm_remove w4 r0 in let! w6 := rankm_add w5 r in Ok (with_pools (set (w_pools w6) id r) w6)) = Ok w' ->
    Inv m al' (upd2 ow uid id (Some r)) w' /\ w_agents w' = w_agents w2 /\ w_heap w' = w_heap w2 /\ w_pools w' = set (w_pools w) id r /\
    same_params w w' /\ w_next w' = w_next w /\ w_idseq w' = w_idseq w.
  Proof.
    intros I Ho E2 Hh Gr Hu Eid Eo Hnp Nd Hpv Hlt Hal Hdel Hsub R1 R2 R3.
    destruct (i_own _ _ _ _ _ _ I _ _ _ Ho) as (G0 & Hown).
    destruct (i_reg _ _ _ _ _ _ I _ _ G0) as (p0 & Gp0 & Eid0 & Hid & _).
    assert (N0 : r0 <> r) by (intros ->; now apply (Hu id)).
    assert (Ep : w_pools w2 = w_pools w) by now rewrite E2.
    assert (Ef : w_rss w2 = w_rss w /\ w_next w2 = w_next w /\ w_idseq w2 = w_idseq w /\ w_rank w2 = w_rank w /\ w_rankm w2 = w_rankm w) by (rewrite E2; repeat split).
    destruct Ef as (Erss & Enext & Eseq & Erank & Erankm). rewrite Ep in R1.
    destruct (rank_remove_ok _ _ _ R1) as (q & l & Gq & Hl & ->). cbn in Gq, Hl. rewrite (Hh r0 N0), Gp0 in Gq. injection Gq as <-. rewrite Erank in Hl.
    destruct (rank_add_ok _ _ _ R2) as (q & Gq & ->). cbn in Gq. rewrite Gr in Gq. injection Gq as <-. cbn in R3.
    apply bind_ok in R3 as (w5 & R3 & R4). destruct (rankm_remove_ok _ _ _ R3) as (q & k & lm & Gq & Hk & Hlm & ->). cbn in Gq, Hk, Hlm. rewrite Erankm in Hlm.
    apply bind_ok in R4 as (w6 & R4 & [= <-]). destruct (rankm_add_ok _ _ _ R4) as (q' & k' & Gq' & Hk' & ->). cbn in Gq', Hk'. rewrite Gr in Gq'. injection Gq' as <-.
    cbn. rewrite set_set. rewrite Erss in *.
    assert (Np := i_nd _ _ _ _ _ _ I).
    assert (Idx : forall id' r', get (w_pools w) id' = Some r' -> r' <> r) by (intros id' r' G ->; now apply (Hu id')).
    assert (Pv : Permutation (values (w_pools w)) (r0 :: values (pop (w_pools w) id))) by (apply (values_perm _ ((id, r0) :: _)); now apply pop_perm).
    assert (Pv' : Permutation (values (set (w_pools w) id r)) (r :: values (pop (w_pools w) id))) by (apply (values_perm _ ((id, r) :: _)); now apply set_perm with r0).
    assert (HR : forall r' p1, In r' (values (pop (w_pools w) id)) -> get (w_heap w) r' = Some p1 -> get (w_heap w2) r' = Some p1).
    { intros r' p1 Hr G. rewrite Hh; [assumption|]. assert (J : In r' (values (w_pools w))) by (rewrite Pv; now right).
      destruct (In_values _ _ Np J) as (id' & G'). now apply (Idx id'). }
    split; [|split; [|split; [|split; [|split; [|split]]]]]; try assumption; try reflexivity; [|unfold same_params; cbn; rewrite E2; repeat split].
    assert (I' := I). destruct I as [I1 I2 I3 I4 I5 I6 I7 I8].
    constructor; cbn [w_pools w_heap w_next w_rss w_idseq w_rank w_rankm with_pools with_rank with_rankm]; rewrite ?Erss, ?Enext, ?Eseq, ?Erank, ?Erankm.
    - now apply NoDup_set.
    - intros r' p1 G. destruct (Nat.eq_dec r' r) as [->|N]; [assumption|]. rewrite Hh in G by assumption. eapply I2; eassumption.
    - intros id' r' G. rewrite get_set in G. unfold upd2. destruct (Nat.eqb_spec id id').
      + injection G as <-. subst id'. exists p. rewrite Eo, !Nat.eqb_refl. cbn [andb]. auto 10.
      + destruct (I3 id' r' G) as (p1 & J1 & J2 & J3 & J4 & J5 & J6 & J7). exists p1. rewrite Hh by (eapply Idx; eassumption).
        rewrite (proj2 (Nat.eqb_neq id' id)) by congruence. rewrite andb_false_r. auto 10.
    - intros a id' r' J. unfold upd2 in J. destruct (Nat.eqb_spec a uid), (Nat.eqb_spec id' id); cbn [andb] in J.
      + injection J as <-. subst. rewrite get_set_eq. split; [reflexivity|]. intros p1 G. congruence.
      + destruct (I4 a id' r' J) as (J1 & J2). rewrite get_set_ne by congruence. split; [assumption|]. rewrite Hh by (eapply Idx; eassumption). assumption.
      + exfalso. subst id'. destruct (I4 a id r' J) as (J1 & J2). apply n. rewrite G0 in J1. injection J1 as <-. transitivity (p_owner p0); [symmetry; now apply J2 | now apply Hown].
      + destruct (I4 a id' r' J) as (J1 & J2). rewrite get_set_ne by congruence. split; [assumption|]. rewrite Hh by (eapply Idx; eassumption). assumption.
    - intros id' r' p1 a v G J. rewrite get_set in G. destruct (Nat.eqb_spec id id').
      + injection G as <-. subst id'. rewrite Gr in J. injection J as <-. apply Hdel.
      + rewrite Hal by congruence. rewrite Hh in J by (eapply Idx; eassumption). eapply I5; eassumption.
    - intros a id' v J. destruct (Nat.eq_dec id' id) as [->|N].
      + apply Hsub in J. destruct (I6 a id v J) as (J1 & r1 & p1 & J2 & J3 & J4). split; [assumption|]. exists r, p. rewrite get_set_eq. repeat split; auto.
        rewrite Eo. rewrite G0 in J2. injection J2 as <-. rewrite <- (Hown p1 J3). assumption.
      + rewrite Hal in J by assumption. destruct (I6 a id' v J) as (J1 & r1 & p1 & J2 & J3 & J4). split; [assumption|]. exists r1, p1. rewrite get_set_ne by congruence.
        rewrite Hh by (eapply Idx; eassumption). auto.
    - destruct (rank_ok_remove _ _ _ _ _ _ _ _ I7 Hl) as (refs' & P & R).
      assert (P' : Permutation refs' (values (pop (w_pools w) id))) by (apply (Permutation_cons_inv (a := r0)); rewrite <- P; exact Pv).
      eapply rank_ok_perm; [symmetry; exact Pv'|]. eapply rank_ok_add; [exact O | | exact Gr | reflexivity]. eapply rank_ok_perm; [exact P'|].
      eapply rank_ok_frame; [|exact R]. intros r' p1 Hr G. exists p1. split; [apply HR; [now apply (Permutation_in _ P') | assumption] | reflexivity].
    - destruct (rank_ok_remove _ _ _ _ _ _ _ _ I8 Hlm) as (refs' & P & R).
      assert (P' : Permutation refs' (values (pop (w_pools w) id))) by (apply (Permutation_cons_inv (a := r0)); rewrite <- P; exact Pv).
      eapply rank_ok_perm; [symmetry; exact Pv'|]. eapply rank_ok_add; [exact O | | exact Gr | exact Hk']. eapply rank_ok_perm; [exact P'|].
      eapply rank_ok_frame; [|exact R]. intros r' p1 Hr G. exists p1. split; [apply HR; [now apply (Permutation_in _ P') | assumption] | reflexivity].
  Qed.

  Lemma update_inv m al ow uid w id w' ag st new : Inv m al ow w -> agents_ok w -> w_simul w = false -> ghost uid al ow w ->
    get (w_agents w) uid = Some ag -> a_strategy ag = Some st -> a_new ag = Some new ->
    own_st w uid st new id -> (exists r0, get (s_owned st) id = Some r0 /\ ow uid id = Some r0) ->
    update_pool uid w id = Ok w' ->
    exists al' r, get (s_owned new) id = Some r /\ Inv m al' (upd2 ow uid id (Some r)) w' /\ agents_ok w' /\ ghost uid al' (upd2 ow uid id (Some r)) w' /\
      (forall id', al' uid id' = al uid id') /\ (forall a id' v, al' a id' = Some v -> al a id' = Some v) /\
      same_params w w' /\ w_pools w' = set (w_pools w) id r /\ w_next w' = w_next w /\ w_idseq w' = w_idseq w /\
      (forall r', r' <> r -> get (w_heap w') r' = get (w_heap w) r') /\ get (w_agents w') uid = Some ag /\ agents_rel w w' /\
      (forall a id', id' <> id -> al' a id' = al a id') /\ (forall a v, al a id = Some v -> al' a id = Some v \/ exists p, get (w_heap w') r = Some p /\ p_private p = true).
  Proof.
    intros I AO Hs Gh Ga Gst Gnew (r & p & Gr & Hu & Gp & Eid & Eo & Hnp & Nd & Hm) (r0 & Gr0 & Ho) H.
    rewrite Gr0 in Hm. destruct Hm as (G0 & p0 & Gp0 & Hd).
    unfold update_pool in H. unfold the_agent in H. rewrite Ga in H. cbn [of_option bind] in H. rewrite Gnew in H. cbn [of_option bind] in H.
    rewrite Gr in H. cbn [of_option bind] in H. unfold deref in H at 1. rewrite Gp in H. cbn [of_option bind] in H.
    apply bind_ok in H as (w1 & H1 & H).
    assert (Hdel0 : forall a v, get (p_delegators p0) a = Some v <-> al a id = Some v) by (intros; eapply i_del; eassumption).
    assert (Hself : al uid id = None).
    { destruct (al uid id) eqn:E; [|reflexivity]. destruct (i_al _ _ _ _ _ _ I _ _ _ E) as (_ & r1 & p1 & J1 & J2 & Hne). exfalso. apply Hne.
      destruct (i_own _ _ _ _ _ _ I _ _ _ Ho) as (_ & J). apply J. congruence. }
    assert (Huid : ~ In uid (keys (p_delegators p))).
    { intros J. apply get_Some_key in J as (v & J). rewrite Hd in J. apply Hdel0 in J. congruence. }
    (* the world after a possible removal of delegations *)
    assert (W1 : exists p1 al', w1 = with_agents (w_agents w1) (with_heap (w_heap w1) w) /\ (forall r', r' <> r -> get (w_heap w1) r' = get (w_heap w) r') /\
              get (w_heap w1) r = Some p1 /\ p_id p1 = id /\ p_owner p1 = uid /\ NP (w_rss w) p1 /\ NoDup (keys (p_delegators p1)) /\
              (PVT -> p_private p1 = true -> p_delegators p1 = []) /\
              (forall a id', id' <> id -> al' a id' = al a id') /\ (forall a v, get (p_delegators p1) a = Some v <-> al' a id = Some v) /\
              (forall a v, al' a id = Some v -> al a id = Some v) /\ agents_ok w1 /\ agents_rel w w1 /\ (forall a id', a <> uid -> al' a id' = al_of w1 a id') /\
              get (w_agents w1) uid = Some ag /\ (forall a v, al a id = Some v -> al' a id = Some v \/ p_private p1 = true)).
    { destruct (p_private p && ltb (p_pledge p) (p_stake p)) eqn:Ec.
      - destruct (remove_delegations_spec MP NP NP_upd w r p w1 AO Hs Gp Nd H1) as (p' & RD & Ed). destruct RD as [D1 D2 D3 D4 D5 D6 D7 D8 D9 D10 D11].
        exists p', (drop2 al id). unfold same_static in D4. split; [exact D1|]. split; [exact D2|]. split; [exact D3|].
        split; [rewrite D4; exact Eid|]. split; [rewrite D4; exact Eo|]. split; [now apply D7|]. split; [exact D5|]. split; [intros; exact Ed|].
        split; [intros a id' N; unfold drop2; now rewrite (proj2 (Nat.eqb_neq id' id)) by assumption|].
        split; [intros a v; unfold drop2; rewrite Ed, Nat.eqb_refl; cbn; split; discriminate|].
        split; [intros a v; unfold drop2; rewrite Nat.eqb_refl; discriminate|]. split; [exact D10|]. split; [exact D8|]. split.
        + intros a id' Ha. rewrite D9. destruct (Gh a id' Ha) as [Gal _]. unfold drop2. rewrite Eid. destruct (Nat.eqb_spec id' id).
          * subst id'. destruct (inb a (keys (p_delegators p))) eqn:E; cbn [andb]; [reflexivity|]. rewrite <- Gal. symmetry. apply inb_false in E.
            destruct (al a id) eqn:E'; [|reflexivity]. exfalso. apply E. apply get_Some_key. exists t. rewrite Hd. now apply Hdel0.
          * rewrite andb_false_r. assumption.
        + split; [now rewrite D11|]. intros a v _. right. rewrite D4. cbn. now apply andb_true_iff in Ec.
      - injection H1 as <-. exists p, al. split; [now destruct w|]. split; [reflexivity|]. split; [assumption|]. split; [assumption|]. split; [assumption|].
        split; [assumption|]. split; [assumption|]. split.
        + intros HT Pr. rewrite Pr in Ec. cbn [andb] in Ec. eapply NP_private; [assumption | eassumption | assumption | assumption |].
          intros a v J. rewrite Hd in J. apply Hdel0 in J. now destruct (i_al _ _ _ _ _ _ I _ _ _ J).
        + split; [reflexivity|]. split; [intros a v; rewrite Hd; apply Hdel0|]. split; [auto|]. split; [assumption|]. split; [apply agents_rel_refl|].
          split; [|split; [assumption | auto]]. intros a id' Ha. now destruct (Gh a id' Ha). }
    destruct W1 as (p1 & al' & W1 & Hh & Gr1 & Eid1 & Eo1 & Hnp1 & Nd1 & Hpv & Hal & Hdel & Hsub & AO1 & AR & GhA & Gu & Hkeep).
    cbn [w_agents with_pools] in H. rewrite Gu in H. cbn [of_option bind] in H. unfold the_strategy in H. rewrite Gst in H. cbn [of_option bind] in H.
    rewrite Gr0 in H. cbn [of_option bind] in H. apply bind_ok in H as (w3 & R1 & H). apply bind_ok in H as (w4 & R2 & R3).
    destruct (swap_inv m al ow uid w id r0 r p1 al' w1 w3 w4 w') as (I' & Ea & Eh & Ep & Esp & En & Es); try eassumption.
    { eapply i_fresh; eassumption. }
    exists al', r. split; [assumption|]. split; [assumption|].
    assert (AOw : agents_ok w') by (unfold agents_ok; rewrite Ea; exact AO1).
    assert (ARw : agents_rel w w') by (eapply agents_rel_trans; [exact AR | now apply agents_rel_eq]).
    split; [assumption|]. split.
    { intros a id' Ha. split.
      - rewrite GhA by assumption. unfold al_of. now rewrite Ea.
      - unfold upd2. rewrite (proj2 (Nat.eqb_neq a uid)) by assumption. cbn [andb]. rewrite (agents_rel_ow w w' a id' ARw). now destruct (Gh a id' Ha). }
    split.
    { intros id'. destruct (Nat.eq_dec id' id) as [->|N]; [|now apply Hal]. rewrite Hself. destruct (al' uid id) eqn:E; [|reflexivity].
      apply Hsub in E. congruence. }
    split. { intros a id' v J. destruct (Nat.eq_dec id' id) as [->|N]; [now apply Hsub | now rewrite <- Hal]. }
    split; [assumption|]. split; [assumption|]. split; [assumption|]. split; [assumption|]. split; [rewrite Eh; assumption|]. split; [now rewrite Ea|]. split; [assumption|].
    split; [assumption|]. intros a v J. destruct (Hkeep a v J) as [K|K]; [now left|]. right. exists p1. rewrite Eh. now split.
  Qed.

  (** ** open_pool *)
  Lemma open_inv m al ow uid w id w' ag st : Inv m al ow w -> get (w_agents w) uid = Some ag -> a_strategy ag = Some st ->
    (exists r p, get (s_owned st) id = Some r /\ (forall id', get (w_pools w) id' <> Some r) /\ get (w_heap w) r = Some p /\ p_id p = id /\ p_owner p = uid /\
      NP (w_rss w) p /\ get (w_pools w) id = None /\ 1 <= id <= w_idseq w /\ p_delegators p = []) ->
    open_pool uid w id = Ok w' ->
    exists r, get (s_owned st) id = Some r /\ Inv m al (upd2 ow uid id (Some r)) w' /\ w_agents w' = w_agents w /\ w_heap w' = w_heap w /\
      w_pools w' = set (w_pools w) id r /\ same_params w w' /\ w_next w' = w_next w /\ w_idseq w' = w_idseq w.
  Proof.
    intros I Ga Gst (r & p & Gr & Hu & Gp & Eid & Eo & Hnp & Gn & Hid & Hd) H. exists r. split; [assumption|].
    unfold open_pool, the_agent in H. rewrite Ga in H. cbn [of_option bind] in H. unfold the_strategy in H. rewrite Gst in H. cbn [of_option bind] in H.
    rewrite Gr in H. cbn [of_option bind] in H. apply bind_ok in H as (w2 & H2 & H3).
    destruct (rank_add_ok _ _ _ H2) as (q & Gq & ->). cbn in Gq. rewrite Gp in Gq. injection Gq as <-.
    destruct (rankm_add_ok _ _ _ H3) as (q & k & Gq & Hk & ->). cbn in Gq, Hk. rewrite Gp in Gq. injection Gq as <-.
    split; [|cbn; repeat split; auto].
    assert (Np := i_nd _ _ _ _ _ _ I). assert (I' := I). destruct I as [I1 I2 I3 I4 I5 I6 I7 I8].
    assert (Nin : ~ In id (keys (w_pools w))) by now apply get_None.
    assert (Idx : forall id' r', get (w_pools w) id' = Some r' -> id' <> id) by (intros id' r' G ->; congruence).
    assert (Aln : forall a, al a id = None).
    { intros a. destruct (al a id) eqn:E; [|reflexivity]. destruct (I6 _ _ _ E) as (_ & r1 & p1 & J & _). congruence. }
    assert (Pv : Permutation (r :: values (w_pools w)) (values (set (w_pools w) id r))).
    { rewrite set_new by assumption. unfold values. rewrite map_app. cbn. apply Permutation_cons_append. }
    constructor; cbn [w_pools w_heap w_next w_rss w_idseq w_rank w_rankm with_pools with_rank with_rankm].
    - now apply NoDup_set.
    - assumption.
    - intros id' r' G. rewrite get_set in G. unfold upd2. destruct (Nat.eqb_spec id id').
      + injection G as <-. subst id'. exists p. rewrite Eo, !Nat.eqb_refl. cbn [andb]. rewrite Hd. repeat split; auto; try lia. constructor.
      + destruct (I3 id' r' G) as (p1 & J). exists p1. rewrite (proj2 (Nat.eqb_neq id' id)) by congruence. rewrite andb_false_r. exact J.
    - intros a id' r' J. unfold upd2 in J. destruct (Nat.eqb_spec a uid), (Nat.eqb_spec id' id); cbn [andb] in J.
      + injection J as <-. subst. rewrite get_set_eq. split; [reflexivity|]. intros p1 G. congruence.
      + destruct (I4 a id' r' J) as (J1 & J2). rewrite get_set_ne by congruence. now split.
      + destruct (I4 a id' r' J) as (J1 & J2). exfalso. subst id'. congruence.
      + destruct (I4 a id' r' J) as (J1 & J2). rewrite get_set_ne by congruence. now split.
    - intros id' r' p1 a v G J. rewrite get_set in G. destruct (Nat.eqb_spec id id').
      + injection G as <-. subst id'. rewrite Gp in J. injection J as <-. rewrite Hd, Aln. cbn. split; discriminate.
      + eapply I5; eassumption.
    - intros a id' v J. destruct (I6 a id' v J) as (J1 & r1 & p1 & J2 & J3 & J4). split; [assumption|]. exists r1, p1.
      rewrite get_set_ne by (intros <-; now apply (Idx id r1)). auto.
    - eapply rank_ok_perm; [exact Pv|]. eapply rank_ok_add; [exact O | exact I7 | exact Gp | reflexivity].
    - eapply rank_ok_perm; [exact Pv|]. eapply rank_ok_add; [exact O | exact I8 | exact Gp | exact Hk].
  Qed.

  (** ** the loops of execute_strategy *)
  Record mid (m uid : nat) (st new : strategy A) (todo : list nat) (al : nat -> nat -> option num) (ow : nat -> nat -> option nat) (w0 w : world A) : Prop := {
    m_inv : Inv m al ow w; m_ok : agents_ok w; m_sim : w_simul w = false; m_ghost : ghost uid al ow w;
    m_ag : exists ag, get (w_agents w) uid = Some ag /\ a_strategy ag = Some st /\ a_new ag = Some new;
    m_todo : forall id, In id todo -> own_st w uid st new id;
    m_par : same_params w0 w; m_next : w_next w = w_next w0; m_seq : w_idseq w = w_idseq w0; m_rel : agents_rel w0 w;
    m_static : forall id r p, get (w_pools w0) id = Some r -> get (w_heap w0) r = Some p -> p_owner p <> uid ->
                 get (w_pools w) id = Some r /\ exists p', get (w_heap w) r = Some p' /\ same_static p p';
    m_sub : forall a id v, a <> uid -> al a id = Some v -> al_of w0 a id = Some v
  }.
  Lemma own_st_frame w w' uid st new id : own_st w uid st new id ->
    w_rss w' = w_rss w -> w_idseq w' = w_idseq w ->
    (forall r, get (s_owned new) id = Some r -> get (w_heap w') r = get (w_heap w) r /\ forall id', get (w_pools w') id' <> Some r) ->
    (forall r0, get (s_owned st) id = Some r0 -> get (w_heap w') r0 = get (w_heap w) r0) -> get (w_pools w') id = get (w_pools w) id ->
    own_st w' uid st new id.
  Proof.
    intros (r & p & Gr & Hu & Gp & Eid & Eo & Hnp & Nd & Hm) Er Es Hr H0 Hp. destruct (Hr r Gr) as [Hr1 Hr2]. exists r, p. rewrite Hr1, Er, Es, Hp.
    split; [assumption|]. split; [exact Hr2|]. split; [assumption|]. split; [assumption|]. split; [assumption|]. split; [assumption|]. split; [assumption|].
    destruct (get (s_owned st) id) as [r0|]; [|assumption]. rewrite (H0 r0 eq_refl). exact Hm.
  Qed.

  Lemma close_all m uid st new todo w0 ids : forall al ow w w', NoDup ids -> mid m uid st new todo al ow w0 w ->
    (forall id, In id ids -> exists r, ow uid id = Some r) -> (forall id, In id ids -> ~ In id todo) -> foldM close_pool ids w = Ok w' ->
    exists al' ow', mid m uid st new todo al' ow' w0 w' /\ (forall id, (al uid id = None \/ ~ In id ids) -> al' uid id = al uid id) /\ (forall id, ow' uid id = if inb id ids then None else ow uid id) /\
      (forall a id, ~ In id ids -> al' a id = al a id).
  Proof.
    induction ids as [|id ids IH]; intros al ow w w' N M Ho Ht H; cbn in H.
    - injection H as <-. exists al, ow. split; [assumption|]. split; [|split]; reflexivity.
    - apply bind_ok in H as (w1 & H1 & H). apply NoDup_cons_iff in N as [N1 N]. destruct (Ho id (or_introl eq_refl)) as (r & Hr).
      destruct M as [M1 M2 M3 M4 M5 M6 M7 M8 M9 M10 M11 M12].
      destruct (close_inv m al ow uid w id w1 r M1 M2 M3 M4 Hr H1) as (I1 & A1 & G1 & P1 & Ep & En & Es & Eh & Ea & Er).
      destruct (i_own _ _ _ _ _ _ M1 _ _ _ Hr) as (Gr & _).
      assert (M : mid m uid st new todo (drop2 al id) (drop2 ow id) w0 w1).
      { constructor; [assumption | assumption | now rewrite (proj1 (proj2 (proj2 (proj2 (proj2 P1))))) | assumption | now rewrite Ea | | eapply same_params_trans; eassumption | now rewrite En | now rewrite Es | eapply agents_rel_trans; eassumption | |].
        2: { intros id' r' p' J1 J2 J3. destruct (M11 id' r' p' J1 J2 J3) as (J4 & p1 & J5 & J6).
             assert (Ne : id' <> id). { intros ->. destruct (i_own _ _ _ _ _ _ M1 _ _ _ Hr) as (K1 & K2). apply J3. unfold same_static in J6.
               assert (r' = r) by congruence. subst r'. specialize (K2 p1 J5). rewrite J6 in K2. exact K2. }
             split; [rewrite Ep, get_pop, (proj2 (Nat.eqb_neq id id')) by (congruence || exact (i_nd _ _ _ _ _ _ M1)); assumption|].
             exists p1. split; [|assumption]. rewrite Eh; [assumption|]. intros ->. apply Ne. eapply (Inv_ref_id NP PVT); [exact M1 | eassumption | eassumption]. }
        2: { intros a id' v Ha J. unfold drop2 in J. destruct (Nat.eqb id' id); [discriminate|]. now apply M12. }
        intros id' Hi. specialize (M6 id' Hi). assert (Ne : id' <> id) by (intros ->; apply (Ht id); [now left | assumption]).
        assert (M6' := M6). destruct M6' as (r' & p' & Gr' & Hu' & _ & _ & _ & _ & _ & Hm).
        eapply own_st_frame; [exact M6 | now destruct P1 | congruence | | |].
        - intros r1 Gr1. rewrite Gr' in Gr1. injection Gr1 as <-. split; [apply Eh; intros ->; now apply (Hu' id)|].
          intros id2. rewrite Ep, get_pop by (exact (i_nd _ _ _ _ _ _ M1)). destruct (Nat.eqb id id2); [discriminate | apply Hu'].
        - intros r0 G0. rewrite G0 in Hm. destruct Hm as (Gp & _). apply Eh. intros ->. apply Ne. eapply (Inv_ref_id NP PVT); [exact M1 | eassumption | eassumption].
        - rewrite Ep, get_pop by (exact (i_nd _ _ _ _ _ _ M1)). now rewrite (proj2 (Nat.eqb_neq id id')) by congruence. }
      destruct (IH _ _ w1 w' N M) as (al' & ow' & M' & Eal & Eow & Ekp).
      + intros id' Hi. destruct (Ho id' (or_intror Hi)) as (r' & Hr'). exists r'. unfold drop2. rewrite (proj2 (Nat.eqb_neq id' id)); [assumption|]. intros ->. now apply N1.
      + intros id' Hi. apply Ht. now right.
      + exact H.
      + exists al', ow'. split; [assumption|]. split.
        * intros id' Hc. rewrite Eal.
          -- unfold drop2. destruct (Nat.eqb_spec id' id); [|reflexivity]. subst id'. destruct Hc as [Hc|Hc]; [congruence | exfalso; apply Hc; now left].
          -- destruct Hc as [Hc|Hc]; [left; unfold drop2; now destruct (Nat.eqb id' id) | right; intros ?; apply Hc; now right].
        * split; [intros id'; rewrite Eow; unfold drop2; unfold inb; cbn [existsb]; destruct (Nat.eqb id' id); cbn [orb]; [now destruct (existsb (Nat.eqb id') ids) | reflexivity]|].
          intros a id' Hc. rewrite Ekp by (intros ?; apply Hc; now right). unfold drop2. destruct (Nat.eqb_spec id' id); [|reflexivity]. subst id'. exfalso. apply Hc. now left.
  Qed.

  Lemma update_all m uid st new todo w0 ids : forall al ow w w', NoDup (ids ++ todo) -> mid m uid st new (ids ++ todo) al ow w0 w ->
    (forall id, In id ids -> exists r, get (s_owned st) id = Some r /\ ow uid id = Some r) -> foldM (update_pool uid) ids w = Ok w' ->
    exists al' ow', mid m uid st new todo al' ow' w0 w' /\ (forall id, al' uid id = al uid id) /\ (forall id, ow' uid id = if inb id ids then get (s_owned new) id else ow uid id) /\
      (forall r, (forall id, In id ids -> get (s_owned new) id <> Some r) -> get (w_heap w') r = get (w_heap w) r) /\
      (forall a id v, al a id = Some v -> al' a id = Some v \/ In id ids /\ exists r p, get (s_owned new) id = Some r /\ get (w_heap w') r = Some p /\ p_private p = true).
  Proof.
    induction ids as [|id ids IH]; intros al ow w w' N M Ho H; cbn in H.
    - injection H as <-. exists al, ow. split; [assumption|]. split; [reflexivity|]. split; [reflexivity|]. split; [reflexivity | auto].
    - apply bind_ok in H as (w1 & H1 & H). cbn [app] in N. apply NoDup_cons_iff in N as [N1 N]. destruct (Ho id (or_introl eq_refl)) as (r0 & Hr0 & Hor).
      destruct M as [M1 M2 M3 M4 (ag & Ga & Gst & Gnew) M6 M7 M8 M9 M10 M11 M12].
      destruct (update_inv m al ow uid w id w1 ag st new M1 M2 M3 M4 Ga Gst Gnew) as (al1 & r & Gr & I1 & A1 & G1 & Eal & Esub & P1 & Ep & En & Es & Eh & Ea & Er & Ekp & Ekk);
        [apply M6; now left | eauto | exact H1 |].
      destruct (M6 id (or_introl eq_refl)) as (rr & pp & Grr & Hur & Gpr & Eidr & _). rewrite Gr in Grr. injection Grr as <-.
      assert (M : mid m uid st new (ids ++ todo) al1 (upd2 ow uid id (Some r)) w0 w1).
      { constructor; [assumption | assumption | now rewrite (proj1 (proj2 (proj2 (proj2 (proj2 P1))))) | assumption | eauto | | eapply same_params_trans; eassumption | now rewrite En | now rewrite Es | eapply agents_rel_trans; eassumption | |].
        2: { intros id' r' p' J1 J2 J3. destruct (M11 id' r' p' J1 J2 J3) as (J4 & p1 & J5 & J6).
             assert (Ne : id' <> id). { intros ->. destruct (i_own _ _ _ _ _ _ M1 _ _ _ Hor) as (K1 & K2). apply J3. unfold same_static in J6.
               assert (r' = r0) by congruence. subst r'. specialize (K2 p1 J5). rewrite J6 in K2. exact K2. }
             split; [rewrite Ep, get_set_ne by congruence; assumption|].
             exists p1. split; [|assumption]. rewrite Eh; [assumption|]. intros ->. now apply (Hur id'). }
        2: { intros a id' v Ha J. apply Esub in J. now apply M12. }
        intros id' Hi. specialize (M6 id' (or_intror Hi)). assert (Ne : id' <> id) by congruence.
        destruct (M6) as (r' & p' & Gr' & Hu' & Gp' & Eid' & _ & _ & _ & Hm).
        assert (Nr : r' <> r) by (intros ->; congruence).
        eapply own_st_frame; [exact M6 | now destruct P1 | congruence | | |].
        - intros r1 Gr1. rewrite Gr' in Gr1. injection Gr1 as <-. split; [now apply Eh|].
          intros id2. rewrite Ep, get_set. destruct (Nat.eqb id id2); [congruence | apply Hu'].
        - intros r1 G1'. rewrite G1' in Hm. destruct Hm as (Gp & _). apply Eh. intros ->. now apply (Hur id').
        - rewrite Ep. now rewrite get_set_ne by congruence. }
      destruct (IH _ _ w1 w' N M) as (al' & ow' & M' & Eal' & Eow & Ehp & Ekeep).
      + intros id' Hi. destruct (Ho id' (or_intror Hi)) as (r' & Hr' & Ho'). exists r'. split; [assumption|]. unfold upd2. rewrite (proj2 (Nat.eqb_neq id' id)); [now rewrite andb_false_r|].
        intros ->. apply N1. apply in_app_iff. now left.
      + exact H.
      + exists al', ow'. split; [assumption|]. split; [intros; rewrite Eal'; apply Eal|].
        split; [intros id'; rewrite Eow; unfold upd2; rewrite Nat.eqb_refl; cbn [andb]; unfold inb; cbn [existsb]; destruct (Nat.eqb_spec id' id); cbn [orb]; [destruct (existsb (Nat.eqb id') ids); congruence | reflexivity]|].
        split; [intros r' Hr'; rewrite Ehp by (intros id' Hi; apply Hr'; now right); apply Eh; intros ->; now apply (Hr' id (or_introl eq_refl))|].
        intros a id' v J. destruct (Nat.eq_dec id' id) as [->|Ne].
        * destruct (Ekk a v J) as [K|(p & K1 & K2)].
          -- destruct (Ekeep a id v K) as [K'|[K' _]]; [now left|]. exfalso. apply N1. apply in_app_iff. now left.
          -- right. split; [now left|]. exists r, p. split; [assumption|]. split; [|assumption]. rewrite Ehp; [assumption|]. intros id2 Hi G2.
             destruct (M6 id2 (or_intror (proj2 (in_app_iff _ _ _) (or_introl Hi)))) as (r2 & p2 & Gr2 & _ & Gp2 & Eid2 & _). rewrite G2 in Gr2. injection Gr2 as <-. assert (Eq : id2 = id) by congruence. apply N1. rewrite <- Eq. apply in_app_iff. left. exact Hi.
        * rewrite <- (Ekp a id' Ne) in J. destruct (Ekeep a id' v J) as [K|[K K']]; [now left | right; split; [now right | exact K']].
  Qed.

  Lemma open_all m uid new ids ag : forall al ow w w', NoDup ids -> Inv m al ow w -> get (w_agents w) uid = Some ag -> a_strategy ag = Some new ->
    (forall id, In id ids -> exists r p, get (s_owned new) id = Some r /\ (forall id', get (w_pools w) id' <> Some r) /\ get (w_heap w) r = Some p /\ p_id p = id /\ p_owner p = uid /\
      NP (w_rss w) p /\ get (w_pools w) id = None /\ 1 <= id <= w_idseq w /\ p_delegators p = []) ->
    foldM (open_pool uid) ids w = Ok w' ->
    exists ow', Inv m al ow' w' /\ (forall a id, a <> uid -> ow' a id = ow a id) /\ (forall id, ow' uid id = if inb id ids then get (s_owned new) id else ow uid id) /\
      w_agents w' = w_agents w /\ w_heap w' = w_heap w /\ same_params w w' /\ w_next w' = w_next w /\ w_idseq w' = w_idseq w /\
      (forall id, ~ In id ids -> get (w_pools w') id = get (w_pools w) id).
  Proof.
    induction ids as [|id ids IH]; intros al ow w w' N I Ga Gst Ht H; cbn in H.
    - injection H as <-. exists ow. repeat (split; [first [assumption | reflexivity | apply same_params_refl]|]). reflexivity.
    - apply bind_ok in H as (w1 & H1 & H). apply NoDup_cons_iff in N as [N1 N].
      destruct (open_inv m al ow uid w id w1 ag new I Ga Gst (Ht id (or_introl eq_refl)) H1) as (r & Gr & I1 & Ea & Eh & Ep & P1 & En & Es).
      destruct (Ht id (or_introl eq_refl)) as (r_ & p & Gr_ & Hu & Gp & Eid & _). rewrite Gr in Gr_. injection Gr_ as <-.
      destruct (IH al (upd2 ow uid id (Some r)) w1 w' N I1) as (ow' & I' & Eo & Es' & Ea' & Eh' & P' & En' & Esq & Epo).
      + now rewrite Ea.
      + assumption.
      + intros id' Hi. destruct (Ht id' (or_intror Hi)) as (r' & p' & J1 & J2 & J3 & J4 & J5 & J6 & J7 & J8 & J9). exists r', p'.
        assert (Ne : id' <> id) by (intros ->; now apply N1). assert (Nr : r' <> r) by congruence. destruct P1 as (Er & _).
        rewrite Eh, Er, Es, Ep, get_set_ne by congruence. repeat (split; [assumption|]). split; [|tauto].
        intros id2. rewrite get_set. destruct (Nat.eqb id id2); [congruence | apply J2].
      + exact H.
      + exists ow'. split; [assumption|]. split; [intros a id' Ha; rewrite Eo by assumption; unfold upd2; now rewrite (proj2 (Nat.eqb_neq a uid))|].
        split.
        * intros id'. rewrite Es'. unfold upd2. rewrite Nat.eqb_refl. cbn [andb]. unfold inb. cbn [existsb].
          destruct (Nat.eqb_spec id' id); cbn [orb]; [destruct (existsb (Nat.eqb id') ids); congruence | reflexivity].
        * split; [congruence|]. split; [congruence|]. split; [eapply same_params_trans; eassumption|]. split; [congruence|]. split; [congruence|].
          intros id' Hi. rewrite Epo, Ep by (intros ?; apply Hi; now right). apply get_set_ne. intros ->. apply Hi. now left.
  Qed.

  (** ** execute_strategy *)
  Record staged (w : world A) (uid : nat) (st new : strategy A) : Prop := {
    sg_alnd : NoDup (keys (s_alloc new));
    sg_ownd : NoDup (keys (s_owned new));
    sg_al : forall id v, get (s_alloc new) id = Some v -> ltb v min_stake_unit = false /\
              exists r p, get (w_pools w) id = Some r /\ get (w_heap w) r = Some p /\ p_owner p <> uid /\ (PVT -> p_private p = false);
    sg_ow : forall id, In id (keys (s_owned new)) -> own_st w uid st new id
  }.

  Variable so : list nat -> list nat -> list nat.
  Hypothesis so_perm : forall c l, Permutation (so c l) l.

  Lemma diff_spec l1 l2 x : In x (diff l1 l2) <-> In x l1 /\ ~ In x l2.
  Proof. unfold diff. rewrite filter_In, negb_true_iff, inb_false. tauto. Qed.
  Lemma inter_spec l1 l2 x : In x (inter l1 l2) <-> In x l1 /\ In x l2.
  Proof. unfold inter. rewrite filter_In, inb_spec. tauto. Qed.
  Lemma so_In c l x : In x (so c l) <-> In x l.
  Proof. split; apply Permutation_in; [|symmetry]; apply so_perm. Qed.
  Lemma so_nodup c l : NoDup l -> NoDup (so c l).
  Proof. intros. eapply Permutation_NoDup; [symmetry; apply so_perm | assumption]. Qed.
  Lemma inb_ext l l' x : (In x l <-> In x l') -> inb x l = inb x l'.
  Proof. intros H. destruct (inb x l) eqn:E, (inb x l') eqn:E'; try reflexivity; [apply inb_spec in E; apply inb_false in E' | apply inb_spec in E'; apply inb_false in E]; tauto. Qed.

  Record executed (uid : nat) (new : strategy A) (ag : agent A) (w w' : world A) : Prop := {
    x_ok : agents_ok w';
    x_par : same_params w w'; x_next : w_next w' = w_next w; x_seq : w_idseq w' = w_idseq w;
    x_keys : keys (w_agents w') = keys (w_agents w);
    x_self : get (w_agents w') uid = Some (agent_set_new None (agent_set_strategy (Some new) ag));
    x_others : forall a, a <> uid -> match get (w_agents w) a with Some ag => exists ag', get (w_agents w') a = Some ag' /\ same_agent ag ag' | None => get (w_agents w') a = None end;
    x_static : forall id r p, get (w_pools w) id = Some r -> get (w_heap w) r = Some p -> p_owner p <> uid ->
                 get (w_pools w') id = Some r /\ exists p', get (w_heap w') r = Some p' /\ same_static p p';
    x_sub : forall a id v, a <> uid -> al_of w' a id = Some v -> al_of w a id = Some v;
    x_keep : forall a id v, a <> uid -> al_of w a id = Some v -> al_of w' a id = Some v \/
               ow_of w uid id <> None /\ (get (s_owned new) id = None \/ exists r p, get (s_owned new) id = Some r /\ get (w_heap w') r = Some p /\ p_private p = true)
  }.

  Lemma execute_inv m uid w w' ag st new : Inv m (al_of w) (ow_of w) w -> agents_ok w -> w_simul w = false ->
    get (w_agents w) uid = Some ag -> a_strategy ag = Some st -> a_new ag = Some new -> staged w uid st new ->
    execute_strategy so w uid = Ok w' -> Inv m (al_of w') (ow_of w') w' /\ executed uid new ag w w'.
  Proof.
    intros I AO Hs Ga Gst Gnew [S1 S2 S3 S4] H. unfold execute_strategy, the_agent in H. rewrite Ga in H. cbn [of_option bind] in H.
    unfold the_strategy in H. rewrite Gst in H. cbn [of_option bind] in H. rewrite Gnew in H. cbn [of_option bind] in H.
    assert (AO' := AO). destruct AO' as [AN AO']. destruct (AO' uid ag Ga) as [Aid Ast]. destruct (Ast st Gst) as [Na No]. clear Ast AO'.
    assert (Eal : forall id, al_of w uid id = get (s_alloc st) id) by (intros; unfold al_of; now rewrite Ga, Gst).
    assert (Eow : forall id, ow_of w uid id = get (s_owned st) id) by (intros; unfold ow_of; now rewrite Ga, Gst).
    set (old_a := keys (s_alloc st)) in *. set (new_a := keys (s_alloc new)) in *. set (old_o := keys (s_owned st)) in *. set (new_o := keys (s_owned new)) in *.
    apply bind_ok in H as (w1 & H1 & H). rewrite touches_zeros in H1. apply bind_ok in H as (w2 & H2 & H). change (touches uid (s_alloc new) w1 = Ok w2) in H2.
    set (gone := so (old_a ++ new_a) (diff old_a new_a)) in *.
    assert (Ngone : NoDup gone) by (apply so_nodup; unfold diff; now apply NoDup_filter').
    (* delegations *)
    assert (I1 := zeros_inv O MP NP PVT NP_upd m _ _ uid gone w w1 I H1). assert (F1 := touches_frame uid _ _ _ H1).
    assert (E1 := tframe_fields _ _ _ F1). destruct E1 as (Er1 & _ & _ & _ & _ & _ & Ea1 & En1 & Ep1 & _ & Es1 & _).
    assert (I2 : Inv m (touched_al uid (s_alloc new) (touched_al uid (zeros gone) (al_of w))) (ow_of w) w2).
    { eapply touches_inv; [exact O | exact MP | exact NP_upd | exact I1 | exact H2 | |].
      - intros id v J. right. apply (In_get _ _ _ S1) in J. now destruct (S3 id v J).
      - intros id v r p J Hz G1 G2. apply (In_get _ _ _ S1) in J. destruct (S3 id v J) as (_ & r0 & p0 & J1 & J2 & J3 & J4).
        rewrite Ep1 in G1. rewrite J1 in G1. injection G1 as <-. destruct F1 as (_ & _ & F1). destruct (F1 r0 p0 J2) as (p' & J5 & J6). rewrite G2 in J5. injection J5 as <-.
        unfold same_static in J6. rewrite J6. cbn. now split. }
    assert (F2 := touches_frame uid _ _ _ H2). assert (F := tframe_trans _ _ _ _ _ F1 F2). clear F1 F2.
    set (al2 := touched_al uid (s_alloc new) (touched_al uid (zeros gone) (al_of w))) in *.
    assert (A2u : forall id, al2 uid id = get (s_alloc new) id).
    { intros id. unfold al2. rewrite touched_al_self by assumption. destruct (get (s_alloc new) id) as [v|] eqn:E; [destruct (S3 id v E) as [-> _]; reflexivity|].
      rewrite touched_zeros by assumption. destruct (inb id gone) eqn:Eg; [reflexivity|]. apply inb_false in Eg. rewrite Eal.
      apply get_None. intros J. apply Eg. unfold gone. rewrite so_In, diff_spec. split; [exact J|]. now apply get_None. }
    assert (A2o : forall a id, a <> uid -> al2 a id = al_of w a id) by (intros; unfold al2; now rewrite !touched_al_other).
    assert (E := tframe_fields _ _ _ F). destruct E as (Er & Erel & Eabs & Ephi & Esim & Etot & Ea & En & Ep & Erk & Es & Eidle).
    assert (Esp : same_params w w2) by (repeat split; assumption).
    (* touched pools belong to others *)
    assert (Ftouch : forall r, (forall id, get (w_pools w) id = Some r -> ow_of w uid id = Some r) -> get (w_heap w2) r = get (w_heap w) r).
    { intros r Hr. destruct F as (_ & F & _). apply F. intros id Hi G. specialize (Hr id G).
      destruct (i_own _ _ _ _ _ _ I _ _ _ Hr) as (_ & Hown). apply in_app_iff in Hi as [Hi|Hi].
      - assert (Hi' : In id (keys (zeros gone))) by exact Hi. rewrite zeros_keys in Hi'. unfold gone in Hi'. rewrite so_In, diff_spec in Hi'. destruct Hi' as [Hi' _].
        apply get_Some_key in Hi' as (v & Hv). rewrite <- Eal in Hv. destruct (i_al _ _ _ _ _ _ I _ _ _ Hv) as (_ & r' & p' & J1 & J2 & J3). apply J3. apply Hown. congruence.
      - apply get_Some_key in Hi as (v & Hv). destruct (S3 id v Hv) as (_ & r' & p' & J1 & J2 & J3 & _). apply J3. apply Hown. congruence. }
    assert (M2 : mid m uid st new new_o al2 (ow_of w) w w2).
    { constructor.
      - exact I2.
      - unfold agents_ok. rewrite Ea. exact AO.
      - congruence.
      - intros a id Hne. split; [unfold al_of; rewrite Ea; now apply A2o | unfold ow_of; now rewrite Ea].
      - exists ag. rewrite Ea. auto.
      - intros id Hi. assert (S4' := S4 id Hi). destruct S4' as (r & p & J1 & J2 & J3 & J4 & J5 & J6 & J7 & J8).
        eapply own_st_frame; [apply (S4 id Hi) | assumption | assumption | | |].
        + intros r' G. rewrite J1 in G. injection G as <-. rewrite Ep. split; [|assumption]. apply Ftouch. intros id' G. exfalso. now apply (J2 id').
        + intros r0 G. rewrite G in J8. apply Ftouch. intros id' G'. assert (id' = id) by (eapply (Inv_ref_id NP PVT); [exact I | exact G' | tauto]). subst id'. now rewrite Eow.
        + now rewrite Ep.
      - exact Esp.
      - exact En.
      - exact Es.
      - now apply agents_rel_eq.
      - intros id r p J1 J2 J3. rewrite Ep. split; [assumption|]. now destruct F as (_ & _ & F); apply F.
      - intros a id v Hne J. now rewrite A2o in J. }
    (* closing *)
    apply bind_ok in H as (w3 & H3 & H).
    assert (Nclose : NoDup (so (old_o ++ new_o) (diff old_o new_o))) by (apply so_nodup; unfold diff; now apply NoDup_filter').
    destruct (close_all m uid st new new_o w _ al2 (ow_of w) w2 w3 Nclose M2) as (al3 & ow3 & M3 & Eal3 & Eow3 & Ekp3); [| | exact H3 |].
    { intros id Hi. rewrite so_In, diff_spec in Hi. destruct Hi as [Hi _]. apply get_Some_key in Hi as (r & Hr). exists r. now rewrite Eow. }
    { intros id Hi. rewrite so_In, diff_spec in Hi. tauto. }
    assert (A3u : forall id, al3 uid id = get (s_alloc new) id).
    { intros id. rewrite <- A2u. apply Eal3. destruct (get (s_alloc new) id) as [v|] eqn:E; [|left; now rewrite A2u].
      right. rewrite so_In, diff_spec. intros [Hi _]. apply get_Some_key in Hi as (r & Hr). destruct (S3 id v E) as (_ & r' & p' & J1 & J2 & J3 & _).
      rewrite <- Eow in Hr. destruct (i_own _ _ _ _ _ _ I _ _ _ Hr) as (J4 & J5). apply J3, J5. congruence. }
    (* updating *)
    apply bind_ok in H as (w4 & H4 & H).
    set (upd := so (new_o ++ old_o) (inter new_o old_o)) in *. set (opn := so (new_o ++ old_o) (diff new_o old_o)) in *.
    assert (Nupd : NoDup upd) by (apply so_nodup; unfold inter; now apply NoDup_filter').
    assert (Nopn : NoDup opn) by (apply so_nodup; unfold diff; now apply NoDup_filter').
    assert (Iupd : forall id, In id upd <-> In id new_o /\ In id old_o) by (intros; unfold upd; now rewrite so_In, inter_spec).
    assert (Iopn : forall id, In id opn <-> In id new_o /\ ~ In id old_o) by (intros; unfold opn; now rewrite so_In, diff_spec).
    assert (Nall : NoDup (upd ++ opn)).
    { clear -Nupd Nopn Iupd Iopn. assert (D : forall x, In x upd -> ~ In x opn) by (intros x; rewrite Iupd, Iopn; tauto). clear Iupd Iopn.
      induction upd as [|x l IH]; cbn; [assumption|]. apply NoDup_cons_iff in Nupd as [X1 X2]. constructor; [|apply IH; [assumption | intros y Hy; apply D; now right]].
      rewrite in_app_iff. intros [Y|Y]; [now apply X1 | now apply (D x (or_introl eq_refl))]. }
    destruct (update_all m uid st new opn w upd al3 ow3 w3 w4 Nall) as (al4 & ow4 & M4 & Eal4 & Eow4 & _ & Ekp4); [| | exact H4 |].
    { destruct M3 as [B1 B2 B3 B4 B5 B6 B7 B8 B9 B10 B11 B12]. constructor; try assumption. intros id Hi. apply B6. apply in_app_iff in Hi as [Hi|Hi]; [apply Iupd in Hi | apply Iopn in Hi]; tauto. }
    { intros id Hi. apply Iupd in Hi as [Hn Ho]. assert (Ho' := Ho). apply get_Some_key in Ho' as (r & Hr). exists r. split; [assumption|]. rewrite Eow3.
      rewrite (proj2 (inb_false id _)); [now rewrite Eow|]. rewrite so_In, diff_spec. tauto. }
    destruct M4 as [B1 B2 B3 B4 (ag4 & Ga4 & Gst4 & Gnew4) B6 B7 B8 B9 B10 B11 B12].
    unfold the_agent in H. rewrite Ga4 in H. cbn [of_option bind] in H. rewrite Gnew4 in H.
    set (ag5 := agent_set_new None (agent_set_strategy (Some new) ag4)) in *. set (w5 := put_agent w4 uid ag5) in *.
    assert (I5 : Inv m al4 ow4 w5) by (eapply Inv_frame; [exact B1 | reflexivity.. | cbn; lia | exact (i_fresh _ _ _ _ _ _ B1) | reflexivity]).
    destruct (open_all m uid new opn ag5 al4 ow4 w5 w' Nopn I5) as (ow' & I' & Eo' & Eu' & Ea' & Eh' & P' & En' & Esq' & Epo'); [| | | exact H |].
    { cbn. apply get_set_eq. }
    { reflexivity. }
    { intros id Hi. destruct (B6 id Hi) as (r & p & J1 & J2 & J3 & J4 & J5 & J6 & J7 & J8). apply Iopn in Hi as [Hn Ho]. rewrite (proj2 (get_None _ _) Ho) in J8.
      exists r, p. cbn. tauto. }
    assert (Eag : ag5 = agent_set_new None (agent_set_strategy (Some new) ag)).
    { unfold ag5. destruct B10 as [_ R]. specialize (R uid). rewrite Ga in R. destruct R as (ag' & G' & (Q1 & Q2 & Q3 & Q4 & Q5 & _)). rewrite Ga4 in G'. injection G' as <-.
      unfold agent_set_new, agent_set_strategy. cbn. congruence. }
    assert (GA : forall a, get (w_agents w') a = if Nat.eqb a uid then Some ag5 else get (w_agents w4) a).
    { intros a. rewrite Ea'. cbn. rewrite get_set, (Nat.eqb_sym uid a). reflexivity. }
    assert (GO : forall id, ow4 uid id = if inb id upd then get (s_owned new) id else None).
    { intros id. rewrite Eow4. destruct (inb id upd) eqn:E; [reflexivity|]. rewrite Eow3, Eow. destruct (inb id (so (old_o ++ new_o) (diff old_o new_o))) eqn:E'; [reflexivity|].
      apply inb_false in E, E'. rewrite Iupd in E. rewrite so_In, diff_spec in E'. apply get_None. change (~ In id old_o). destruct (in_dec Nat.eq_dec id new_o); tauto. }
    assert (Gal4 : forall a id, al4 a id = al_of w' a id).
    { intros a id. unfold al_of. rewrite GA. destruct (Nat.eqb_spec a uid).
      - subst a. cbn. rewrite Eal4. apply A3u.
      - now destruct (B4 a id n) as [-> _]. }
    split.
    - eapply Inv_ext; [| |exact I'].
      + exact Gal4.
      + intros a id. unfold ow_of. rewrite GA. destruct (Nat.eqb_spec a uid).
        * subst a. cbn. rewrite Eu', GO. destruct (inb id opn) eqn:E1; [reflexivity|]. destruct (inb id upd) eqn:E2; [reflexivity|].
          apply inb_false in E1, E2. symmetry. apply get_None. rewrite Iopn in E1. rewrite Iupd in E2. change (~ In id new_o). destruct (in_dec Nat.eq_dec id old_o); tauto.
        * rewrite Eo' by assumption. now destruct (B4 a id n) as [_ ->].
    - constructor.
      + split.
        * rewrite Ea'. cbn. apply NoDup_set. now destruct B2.
        * intros a g G. rewrite GA in G. destruct (Nat.eqb_spec a uid).
          -- subst a. injection G as <-. destruct B2 as [_ B2]. destruct (B2 uid ag4 Ga4) as [Q _]. split; [exact Q|]. intros s0 [= <-]. now split.
          -- now apply B2.
      + eapply same_params_trans; [exact B7|]. exact P'.
      + cbn in En'. congruence.
      + cbn in Esq'. congruence.
      + rewrite Ea'. unfold w5, put_agent, with_agents. cbn [w_agents]. rewrite keys_set_in by (apply get_Some_key; exists ag4; exact Ga4). now destruct B10.
      + rewrite GA, Nat.eqb_refl. now rewrite Eag.
      + intros a Hne. rewrite GA, (proj2 (Nat.eqb_neq a uid)) by assumption. destruct B10 as [_ R]. exact (R a).
      + intros id r p J1 J2 J3. destruct (B11 id r p J1 J2 J3) as (Q1 & p' & Q2 & Q3). split.
        * rewrite Epo'; [exact Q1|]. intros Hi. destruct (B6 id Hi) as (rr & pp & _ & _ & _ & _ & _ & _ & _ & J8). apply Iopn in Hi as [_ Ho].
          rewrite (proj2 (get_None _ _) Ho) in J8. destruct J8 as (J8 & _). congruence.
        * exists p'. rewrite Eh'. now split.
      + intros a id v Hne J. rewrite <- Gal4 in J. now apply (B12 a id v).
      + intros a id v Hne J. rewrite <- Gal4. destruct (inb id (so (old_o ++ new_o) (diff old_o new_o))) eqn:E.
        * right. apply inb_spec in E. rewrite so_In, diff_spec in E. destruct E as [E1 E2]. split; [|left; now apply get_None]. apply get_Some_key in E1 as (r & E1). rewrite Eow, E1. discriminate.
        * apply inb_false in E. rewrite <- (A2o a id Hne), <- (Ekp3 a id E) in J. destruct (Ekp4 a id v J) as [K|[K (r & p & K1 & K2 & K3)]]; [now left|]. right. split.
          -- apply Iupd in K as [_ K]. apply get_Some_key in K as (r' & K). rewrite Eow, K. discriminate.
          -- right. exists r, p. rewrite Eh'. cbn. auto.
  Qed.
End Exec.
