(** The state invariant of runs in which agents act one at a time, and its preservation by the elementary operations.
    [Inv] is stated relative to maps [al] and [ow] (who delegates what to which pool, who owns which pool object), which agree with the agents' recorded
    strategies between activations but run ahead of them while a strategy is being executed. *)
From Coq Require Import ZArith List Bool Arith Lia Permutation Sorted.
From Verif Require Import Num Py Rewards SortedKeyList World Stakeholder ListFacts SLFacts.
Import ListNotations.
Open Scope nat_scope.

Section RankOk.
  Context {A : Arith} (O : OrdLaws A).
  (** the list holds the placeholders and the pools [refs], sorted, each pool with the key it has now *)
  Definition rank_ok (K : pool A -> res (key A)) (h : dict (pool A)) (m : nat) (refs : list nat) (l : sl A) : Prop :=
    sl_sorted l /\ Permutation (sl_elems l) (repeat None m ++ map Some refs) /\
    forall k e, In (k, e) l -> match e with None => k = key_none | Some r => exists p, get h r = Some p /\ K p = Ok k end.

  Lemma rank_ok_refs K h m refs l r : rank_ok K h m refs l -> In r refs -> exists k p, In (k, Some r) l /\ get h r = Some p /\ K p = Ok k.
  Proof.
    intros (S & P & F) I. assert (J : In (Some r) (sl_elems l)).
    { eapply Permutation_in; [symmetry; exact P|]. apply in_app_iff. right. now apply in_map. }
    apply in_map_iff in J as ([k e] & E & J). cbn in E. subst e. destruct (F k (Some r) J) as (p & ? & ?). eauto.
  Qed.
  Lemma rank_ok_elem K h m refs l k r : rank_ok K h m refs l -> In (k, Some r) l -> In r refs.
  Proof.
    intros (S & P & F) I. apply (in_map snd) in I. eapply Permutation_in in I; [|exact P]. apply in_app_iff in I as [I|I].
    - apply repeat_spec in I. discriminate.
    - apply in_map_iff in I as (x & E & I). now injection E as ->.
  Qed.
  Lemma rank_ok_frame K K' h h' m refs l :
    (forall r p, In r refs -> get h r = Some p -> exists p', get h' r = Some p' /\ K' p' = K p) -> rank_ok K h m refs l -> rank_ok K' h' m refs l.
  Proof.
    intros H R. assert (R' := R). destruct R as (S & P & F). split; [assumption|]. split; [assumption|].
    intros k e I. specialize (F k e I). destruct e as [r|]; [|assumption]. destruct F as (p & G & E).
    destruct (H r p) as (p' & G' & E'); [eapply rank_ok_elem; eassumption | assumption |]. exists p'. split; [assumption | congruence].
  Qed.
  Lemma rank_ok_perm K h m refs refs' l : Permutation refs refs' -> rank_ok K h m refs l -> rank_ok K h m refs' l.
  Proof. intros P (S & Q & F). split; [assumption|]. split; [|assumption]. rewrite Q. apply Permutation_app_head. now apply Permutation_map. Qed.
  Lemma rank_ok_add K h m refs l r p k : rank_ok K h m refs l -> get h r = Some p -> K p = Ok k -> rank_ok K h m (r :: refs) (sl_add k (Some r) l).
  Proof.
    intros (S & P & F) G E. split; [now apply sl_add_sorted|]. split.
    - unfold sl_elems in *. rewrite (Permutation_map snd (sl_add_perm A k (Some r) l)). cbn [map snd]. rewrite P. cbn [map].
      apply Permutation_middle.
    - intros k' e I. apply (Permutation_in _ (sl_add_perm A k (Some r) l)) in I as [[= <- <-]|I]; eauto. now apply F.
  Qed.
  Lemma rank_ok_remove K h m refs l l' k r : rank_ok K h m refs l -> sl_remove k (Some r) l = Ok l' ->
    exists refs', Permutation refs (r :: refs') /\ rank_ok K h m refs' l'.
  Proof.
    intros R H. assert (R' := R). destruct R as (S & P & F). destruct (sl_remove_ok A k (Some r) l l' H) as (l1 & [k' e] & l2 & -> & -> & E & _). cbn in E. subst e.
    assert (I : In r refs) by (eapply rank_ok_elem; [exact R' | apply in_app_iff; right; left; reflexivity]).
    apply in_split in I as (a & b & ->). exists (a ++ b). split; [symmetry; apply Permutation_middle|]. split; [eapply sl_sorted_drop; eassumption|]. split.
    - assert (Q : Permutation (Some r :: sl_elems (l1 ++ l2)) (Some r :: repeat None m ++ map Some (a ++ b))).
      { unfold sl_elems in *. rewrite map_app in *. cbn [map snd] in *. rewrite map_app in *. cbn [map] in P.
        rewrite <- Permutation_middle in P. rewrite P. rewrite <- !Permutation_middle. reflexivity. }
      now apply Permutation_cons_inv in Q.
    - intros k0 e I. apply F. apply in_app_iff in I as [I|I]; apply in_app_iff; [now left | right; now right].
  Qed.
  Lemma rank_ok_remove_total K h m refs l r p k : rank_ok K h m refs l -> In r refs -> get h r = Some p -> K p = Ok k -> exists l', sl_remove k (Some r) l = Ok l'.
  Proof.
    intros R I G E. destruct (rank_ok_refs _ _ _ _ _ _ R I) as (k' & p' & J & G' & E'). destruct R as (S & _ & _).
    apply (sl_remove_total A O k k' (Some r) l); [assumption | assumption |]. replace k' with k by congruence. now apply key_eqb_refl.
  Qed.
  Lemma rank_ok_index_total K h m refs l r p k : rank_ok K h m refs l -> In r refs -> get h r = Some p -> K p = Ok k -> exists i, sl_index k (Some r) l = Ok i.
  Proof. intros. apply sl_index_remove. eapply rank_ok_remove_total; eassumption. Qed.
End RankOk.

(** delegations and pools according to the agents' recorded strategies *)
Definition al_of {A} (w : world A) (a id : nat) : option (T A) :=
  match get (w_agents w) a with Some ag => match a_strategy ag with Some st => get (s_alloc st) id | None => None end | None => None end.
Definition ow_of {A} (w : world A) (a id : nat) : option nat :=
  match get (w_agents w) a with Some ag => match a_strategy ag with Some st => get (s_owned st) id | None => None end | None => None end.

Definition upd2 {V} (f : nat -> nat -> option V) (a id : nat) (v : option V) : nat -> nat -> option V :=
  fun a' id' => if Nat.eqb a' a && Nat.eqb id' id then v else f a' id'.
Definition drop2 {V} (f : nat -> nat -> option V) (id : nat) : nat -> nat -> option V :=
  fun a' id' => if Nat.eqb id' id then None else f a' id'.

Section Inv.
  Context {A : Arith} (O : OrdLaws A) (MP : ltb (zero (a := A)) min_stake_unit = true).
  (** [NP]: numeric facts about single pools; [PVT]: whether private pools are known to have no delegators *)
  Variable NP : rss A -> pool A -> Prop.
  Variable PVT : Prop.
  Hypothesis NP_upd : forall rs p v a, NP rs p -> NoDup (keys (p_delegators p)) -> v = zero \/ ltb v min_stake_unit = false -> NP rs (update_delegation v a p).
  Notation K1 := (fun p => Ok (pool_key p)).
  Notation num := (T A).

  Record Inv (m : nat) (al : nat -> nat -> option num) (ow : nat -> nat -> option nat) (w : world A) : Prop := {
    i_nd : NoDup (keys (w_pools w));
    i_fresh : forall r p, get (w_heap w) r = Some p -> r < w_next w;
    i_reg : forall id r, get (w_pools w) id = Some r -> exists p, get (w_heap w) r = Some p /\ p_id p = id /\ 1 <= id <= w_idseq w /\
              NoDup (keys (p_delegators p)) /\ ow (p_owner p) id = Some r /\ NP (w_rss w) p /\ (PVT -> p_private p = true -> p_delegators p = []);
    i_own : forall a id r, ow a id = Some r -> get (w_pools w) id = Some r /\ forall p, get (w_heap w) r = Some p -> p_owner p = a;
    i_del : forall id r p a v, get (w_pools w) id = Some r -> get (w_heap w) r = Some p -> (get (p_delegators p) a = Some v <-> al a id = Some v);
    i_al : forall a id v, al a id = Some v -> ltb v min_stake_unit = false /\
             exists r p, get (w_pools w) id = Some r /\ get (w_heap w) r = Some p /\ p_owner p <> a;
    i_rank : rank_ok K1 (w_heap w) m (values (w_pools w)) (w_rank w);
    i_rankm : rank_ok (pool_key_myopic (w_rss w)) (w_heap w) m (values (w_pools w)) (w_rankm w)
  }.

  Lemma Inv_ext m al al' ow ow' w : (forall a id, al a id = al' a id) -> (forall a id, ow a id = ow' a id) -> Inv m al ow w -> Inv m al' ow' w.
  Proof.
    intros H1 H2 [I1 I2 I3 I4 I5 I6 I7 I8]. constructor; try assumption.
    - intros id r H. destruct (I3 id r H) as (p & ?). exists p. now rewrite <- H2.
    - intros a id r H. rewrite <- H2 in H. now apply I4.
    - intros id r p a v G1 G2. rewrite <- H1. now apply (I5 id r p a v).
    - intros a id v H. rewrite <- H1 in H. now apply I6.
  Qed.

  Lemma values_In (d : dict nat) id r : get d id = Some r -> In r (values d).
  Proof. intros H. apply get_In in H. now apply (in_map snd) in H. Qed.
  Lemma In_values (d : dict nat) r : NoDup (keys d) -> In r (values d) -> exists id, get d id = Some r.
  Proof. intros N H. apply in_map_iff in H as ([id r'] & E & H). cbn in E. subst r'. exists id. now apply In_get. Qed.
  Lemma values_perm (d d' : dict nat) : Permutation d d' -> Permutation (values d) (values d').
  Proof. apply Permutation_map. Qed.

  (** a pool object is registered under one id only *)
  Lemma Inv_ref_id m al ow w id id' r : Inv m al ow w -> get (w_pools w) id = Some r -> get (w_pools w) id' = Some r -> id = id'.
  Proof. intros I H H'. destruct (i_reg _ _ _ _ I _ _ H) as (p & G & E & _). destruct (i_reg _ _ _ _ I _ _ H') as (p' & G' & E' & _). congruence. Qed.
  Lemma Inv_refs_nodup m al ow w : Inv m al ow w -> NoDup (values (w_pools w)).
  Proof.
    intros I. unfold values. apply NoDup_map_inj.
    - intros [id r] [id' r'] H H' E. cbn in E. subst r'. assert (N := i_nd _ _ _ _ I). apply (In_get _ _ _ N) in H. apply (In_get _ _ _ N) in H'.
      now rewrite (Inv_ref_id _ _ _ _ _ _ _ I H H').
    - eapply NoDup_map_inv. exact (i_nd _ _ _ _ I).
  Qed.
  Lemma Inv_reg_fresh m al ow w id r : Inv m al ow w -> get (w_pools w) id = Some r -> r < w_next w.
  Proof. intros I H. destruct (i_reg _ _ _ _ I _ _ H) as (p & G & _). eapply i_fresh; eassumption. Qed.

  (** changes that leave the registered pools alone *)
  Lemma Inv_frame m al ow w w' : Inv m al ow w ->
    w_pools w' = w_pools w -> w_rank w' = w_rank w -> w_rankm w' = w_rankm w -> w_rss w' = w_rss w -> w_idseq w <= w_idseq w' ->
    (forall r p, get (w_heap w') r = Some p -> r < w_next w') ->
    (forall id r, get (w_pools w) id = Some r -> get (w_heap w') r = get (w_heap w) r) ->
    Inv m al ow w'.
  Proof.
    intros I E1 E2 E3 E4 Hi Hf Hh. assert (N := i_nd _ _ _ _ I). destruct I as [I1 I2 I3 I4 I5 I6 I7 I8].
    assert (Hv : forall r p, In r (values (w_pools w)) -> get (w_heap w) r = Some p -> exists p', get (w_heap w') r = Some p' /\ p' = p).
    { intros r p Hr G. destruct (In_values _ _ N Hr) as (id & Hid). exists p. rewrite (Hh id r Hid). now split. }
    constructor; rewrite ?E1; try assumption.
    - intros id r H. destruct (I3 id r H) as (p & G & ? & ? & ?). exists p. rewrite E4, (Hh id r H). repeat split; try tauto; lia.
    - intros a id r H. destruct (I4 a id r H) as (G1 & G2). split; [assumption|]. rewrite (Hh id r G1). assumption.
    - intros id r p a v H. rewrite (Hh id r H). now apply I5.
    - intros a id v H. destruct (I6 a id v H) as (H1 & r & p & G & G' & H2). split; [assumption|]. exists r, p. rewrite (Hh id r G). auto.
    - rewrite E2. eapply rank_ok_frame; [|exact I7]. intros r p Hr G. destruct (Hv r p Hr G) as (p' & G' & ->). eauto.
    - rewrite E3, E4. eapply rank_ok_frame; [|exact I8]. intros r p Hr G. destruct (Hv r p Hr G) as (p' & G' & ->). eauto.
  Qed.

  (** ** touch_delegation *)
  Lemma touch_ok uid (w : world A) id v w' : touch_delegation uid w id v = Ok w' ->
    exists r p k l k' , get (w_pools w) id = Some r /\ get (w_heap w) r = Some p /\ pool_key_myopic (w_rss w) p = Ok k /\ sl_remove k (Some r) (w_rankm w) = Ok l /\
      pool_key_myopic (w_rss w) (update_delegation v uid p) = Ok k' /\
      w' = with_rankm (sl_add k' (Some r) l) (store w r (update_delegation v uid p)).
  Proof.
    unfold touch_delegation. intros H. apply bind_ok in H as (r & H1 & H). apply of_option_ok in H1.
    apply bind_ok in H as (w1 & H2 & H). unfold rankm_remove in H2. apply bind_ok in H2 as (p & Hp & H2). apply of_option_ok in Hp.
    apply bind_ok in H2 as (k & Hk & H2). apply bind_ok in H2 as (l & Hl & [= <-]).
    apply bind_ok in H as (p1 & Hp1 & H). unfold deref in Hp1. cbn [w_heap with_rankm] in Hp1. rewrite Hp in Hp1. cbn in Hp1. injection Hp1 as <-.
    unfold rankm_add in H. apply bind_ok in H as (q & Hq & H). unfold deref, store in Hq. cbn [w_heap with_heap] in Hq. rewrite get_set_eq in Hq. injection Hq as <-.
    apply bind_ok in H as (k' & Hk' & [= <-]). exists r, p, k, l, k'. cbn [w_rss store with_heap with_rankm] in Hk'. repeat split; auto.
  Qed.

  Lemma upd_key v a (p : pool A) : pool_key (update_delegation v a p) = pool_key p.  Proof. reflexivity. Qed.
  Lemma upd_del v a (p : pool A) b : NoDup (keys (p_delegators p)) ->
    get (p_delegators (update_delegation v a p)) b = if Nat.eqb b a then (if ltb v min_stake_unit then None else Some v) else get (p_delegators p) b.
  Proof.
    intros N. cbn [update_delegation p_delegators]. rewrite (Nat.eqb_sym b a). destruct (ltb v min_stake_unit).
    - rewrite get_pop by now apply NoDup_set. destruct (Nat.eqb_spec a b); [reflexivity|]. now apply get_set_ne.
    - rewrite get_set. reflexivity.
  Qed.
  Lemma upd_nd v a (p : pool A) : NoDup (keys (p_delegators p)) -> NoDup (keys (p_delegators (update_delegation v a p))).
  Proof. intros N. cbn [update_delegation p_delegators]. destruct (ltb v min_stake_unit); [apply NoDup_pop|]; now apply NoDup_set. Qed.

  Lemma touch_inv m al ow uid w id v w' : Inv m al ow w -> touch_delegation uid w id v = Ok w' ->
    v = zero \/ ltb v min_stake_unit = false ->
    (v <> zero -> forall r p, get (w_pools w) id = Some r -> get (w_heap w) r = Some p -> p_owner p <> uid /\ (PVT -> p_private p = false)) ->
    Inv m (upd2 al uid id (if ltb v min_stake_unit then None else Some v)) ow w'.
  Proof.
    intros I H Hv Ho. destruct (touch_ok _ _ _ _ _ H) as (r & p & k & l & k' & G1 & G2 & Hk & Hl & Hk' & ->).
    assert (Idx := Inv_ref_id m al ow w). destruct (i_reg _ _ _ _ I id r G1) as (p0 & G2' & Eid & Hid & Nd & Hown & Hnp & Hpv).
    rewrite G2 in G2'. injection G2' as <-.
    assert (N := i_nd _ _ _ _ I). assert (I' := I). destruct I as [I1 I2 I3 I4 I5 I6 I7 I8].
    constructor; cbn [w_pools w_heap w_next w_rss w_idseq w_rank w_rankm with_rankm store with_heap]; try assumption.
    - intros r' p' H'. rewrite get_set in H'. destruct (Nat.eqb_spec r r'); [subst; eapply I2; eassumption | eapply I2; eassumption].
    - intros id' r' H'. rewrite get_set. destruct (Nat.eqb_spec r r').
      + subst r'. assert (id' = id) by (eapply Idx; eassumption). subst id'. exists (update_delegation v uid p). repeat split; try tauto.
        * now apply upd_nd.
        * now apply NP_upd.
        * intros T Pr. destruct (ltb v min_stake_unit) eqn:Ev.
          -- cbn [update_delegation p_delegators]. rewrite Ev. cbn [update_delegation p_private] in Pr. rewrite (Hpv T Pr). cbn. now rewrite Nat.eqb_refl.
          -- exfalso. assert (v <> zero) by (intros ->; congruence). destruct (Ho H0 r p G1 G2) as [_ Hp]. cbn in Pr. rewrite (Hp T) in Pr. discriminate.
      + now apply I3.
    - intros a id' r' H'. destruct (I4 a id' r' H') as (G & Hp). split; [assumption|]. intros p'. rewrite get_set. destruct (Nat.eqb_spec r r'); [|apply Hp].
      subst r'. intros [= <-]. cbn. now apply Hp.
    - intros id' r' p' a v' H1 H2. unfold upd2. rewrite get_set in H2. destruct (Nat.eqb_spec r r').
      + subst r'. injection H2 as <-. assert (id' = id) by (eapply Idx; eassumption). subst id'. rewrite upd_del by assumption. rewrite Nat.eqb_refl, andb_true_r.
        destruct (Nat.eqb a uid); [reflexivity|]. eapply I5; eassumption.
      + assert (id' <> id) by (intros ->; congruence). rewrite (proj2 (Nat.eqb_neq id' id)) by assumption. rewrite andb_false_r. eapply I5; eassumption.
    - intros a id' v' H'. unfold upd2 in H'. destruct (Nat.eqb_spec a uid), (Nat.eqb_spec id' id); cbn [andb] in H'.
      + subst. destruct (ltb v min_stake_unit) eqn:Ev; [discriminate|]. injection H' as <-. split; [assumption|].
        exists r, (update_delegation v uid p). rewrite get_set_eq. split; [assumption|]. split; [reflexivity|]. cbn.
        assert (v <> zero) by (intros ->; congruence). now destruct (Ho H0 r p G1 G2).
      + destruct (I6 a id' v' H') as (? & r' & p' & ? & ? & ?). split; [assumption|]. exists r', p'. rewrite get_set_ne by (intros ->; apply n; eapply Idx; eassumption). auto.
      + destruct (I6 a id' v' H') as (? & r' & p' & ? & ? & ?). split; [assumption|]. subst id'. replace r' with r in * by congruence. exists r, (update_delegation v uid p).
        rewrite get_set_eq. split; [assumption|]. split; [reflexivity|]. cbn. congruence.
      + destruct (I6 a id' v' H') as (? & r' & p' & ? & ? & ?). split; [assumption|]. exists r', p'. rewrite get_set_ne by (intros ->; apply n0; eapply Idx; eassumption). auto.
    - eapply rank_ok_frame; [|exact I7]. intros r' p' Hr G. rewrite get_set. destruct (Nat.eqb_spec r r'); [|eauto].
      subst r'. exists (update_delegation v uid p). split; [reflexivity|]. rewrite upd_key. congruence.
    - destruct (rank_ok_remove _ _ _ _ _ _ _ _ I8 Hl) as (refs' & P & R).
      assert (ND : NoDup (r :: refs')) by (eapply Permutation_NoDup; [exact P | eapply Inv_refs_nodup; eassumption]).
      eapply rank_ok_perm; [symmetry; exact P|]. eapply rank_ok_add; [exact O | | apply get_set_eq | exact Hk'].
      eapply rank_ok_frame; [|exact R]. intros r' p' Hr G. rewrite get_set_ne; [eauto|]. intros <-. now apply NoDup_cons_iff in ND as [ND _].
  Qed.

  (** ** sequences of touches *)
  Definition touches (uid : nat) (l : dict num) (w : world A) : res (world A) := foldM (fun w e => touch_delegation uid w (fst e) (snd e)) l w.
  Definition touched_al (uid : nat) (l : dict num) (al : nat -> nat -> option num) : nat -> nat -> option num :=
    fold_left (fun al e => upd2 al uid (fst e) (if ltb (snd e) min_stake_unit then None else Some (snd e))) l al.
  Definition same_static (p p' : pool A) : Prop :=
    p' = mkPool (p_id p) (p_cost p) (p_pledge p) (p_stake p') (p_owner p) (p_private p) (p_delegators p') (p_pp p) (p_margin p) (p_des p).
  Lemma same_static_refl p : same_static p p.  Proof. now destruct p. Qed.
  Lemma same_static_trans p q r : same_static p q -> same_static q r -> same_static p r.
  Proof. unfold same_static. intros -> ->. reflexivity. Qed.
  Definition tframe (ids : list nat) (w w' : world A) : Prop :=
    w' = with_rankm (w_rankm w') (with_heap (w_heap w') w) /\
    (forall r, (forall id, In id ids -> get (w_pools w) id <> Some r) -> get (w_heap w') r = get (w_heap w) r) /\
    (forall r p, get (w_heap w) r = Some p -> exists p', get (w_heap w') r = Some p' /\ same_static p p').
  Lemma tframe_refl w : tframe [] w w.
  Proof. split; [now destruct w|]. split; [reflexivity|]. intros r p H. exists p. split; [assumption | apply same_static_refl]. Qed.
  Lemma tframe_fields ids w w' : tframe ids w w' ->
    w_rss w' = w_rss w /\ w_rel w' = w_rel w /\ w_abs w' = w_abs w /\ w_phi w' = w_phi w /\ w_simul w' = w_simul w /\ w_total w' = w_total w /\
    w_agents w' = w_agents w /\ w_next w' = w_next w /\ w_pools w' = w_pools w /\ w_rank w' = w_rank w /\ w_idseq w' = w_idseq w /\ w_idle w' = w_idle w.
  Proof. intros [-> _]. cbn. tauto. Qed.
  Lemma tframe_trans ids ids' w w1 w2 : tframe ids w w1 -> tframe ids' w1 w2 -> tframe (ids ++ ids') w w2.
  Proof.
    intros F1 F2. assert (E := tframe_fields _ _ _ F1). destruct E as (_ & _ & _ & _ & _ & _ & _ & _ & Ep & _).
    destruct F1 as (E1 & U1 & S1), F2 as (E2 & U2 & S2). split; [rewrite E2, E1; reflexivity|]. split.
    - intros r H. rewrite U2, U1; [reflexivity | |]; intros id Hi; [|rewrite Ep]; apply H; apply in_app_iff; auto.
    - intros r p H. destruct (S1 r p H) as (p1 & H1 & T1). destruct (S2 r p1 H1) as (p2 & H2 & T2). exists p2. split; [assumption | eapply same_static_trans; eassumption].
  Qed.
  Lemma touch_frame uid w id v w' : touch_delegation uid w id v = Ok w' -> tframe [id] w w'.
  Proof.
    intros H. destruct (touch_ok _ _ _ _ _ H) as (r & p & k & l & k' & G1 & G2 & _ & _ & _ & ->). split; [reflexivity|]. cbn [w_heap with_rankm store with_heap]. split.
    - intros r' Hr. apply get_set_ne. intros <-. now apply (Hr id (or_introl eq_refl)).
    - intros r' p' G. rewrite get_set. destruct (Nat.eqb_spec r r').
      + subst r'. exists (update_delegation v uid p). split; [reflexivity|]. replace p' with p by congruence. reflexivity.
      + exists p'. split; [assumption | apply same_static_refl].
  Qed.
  Lemma touches_frame uid l : forall w w', touches uid l w = Ok w' -> tframe (map fst l) w w'.
  Proof.
    induction l as [|e l IH]; intros w w' H; cbn in H.
    - injection H as <-. apply tframe_refl.
    - apply bind_ok in H as (w1 & H1 & H2). exact (tframe_trans [fst e] (map fst l) _ _ _ (touch_frame _ _ _ _ _ H1) (IH _ _ H2)).
  Qed.
  Lemma touches_inv m ow uid l : forall al w w', Inv m al ow w -> touches uid l w = Ok w' ->
    (forall id v, In (id, v) l -> v = zero \/ ltb v min_stake_unit = false) ->
    (forall id v r p, In (id, v) l -> v <> zero -> get (w_pools w) id = Some r -> get (w_heap w) r = Some p -> p_owner p <> uid /\ (PVT -> p_private p = false)) ->
    Inv m (touched_al uid l al) ow w'.
  Proof.
    induction l as [|[id v] l IH]; intros al w w' I H Hv Ho; cbn in H.
    - injection H as <-. exact I.
    - apply bind_ok in H as (w1 & H1 & H2). cbn [touched_al fold_left fst snd]. cbn [fst snd] in H1. apply (IH _ w1); [| exact H2 | |].
      + eapply touch_inv; [eassumption | eassumption | apply (Hv id v); now left |]. intros Hz r p G1 G2. apply (Ho id v r p); auto. now left.
      + intros id' v' H'. apply (Hv id' v'). now right.
      + intros id' v' r p H' Hz G1 G2. assert (F := touch_frame _ _ _ _ _ H1). assert (Ef := tframe_fields _ _ _ F). destruct Ef as (_ & _ & _ & _ & _ & _ & _ & _ & Ep & _).
        rewrite Ep in G1. destruct (i_reg _ _ _ _ I _ _ G1) as (p0 & G0 & _). destruct F as (_ & _ & S). destruct (S r p0 G0) as (p' & G' & Es).
        rewrite G2 in G'. injection G' as <-. unfold same_static in Es. rewrite Es. cbn. apply (Ho id' v' r p0); auto. now right.
  Qed.
  Lemma touched_cons uid e l al : touched_al uid (e :: l) al = touched_al uid l (upd2 al uid (fst e) (if ltb (snd e) min_stake_unit then None else Some (snd e))).
  Proof. reflexivity. Qed.
  Lemma touched_al_other uid l : forall al a id, a <> uid -> touched_al uid l al a id = al a id.
  Proof.
    induction l as [|e l IH]; intros al a id Ha; [reflexivity|]. rewrite touched_cons, IH by assumption.
    unfold upd2. now rewrite (proj2 (Nat.eqb_neq a uid)).
  Qed.
  Lemma touched_al_self uid l : forall al id, NoDup (keys l) ->
    touched_al uid l al uid id = match get l id with Some v => if ltb v min_stake_unit then None else Some v | None => al uid id end.
  Proof.
    induction l as [|[k v] l IH]; intros al id N; [reflexivity|]. cbn [keys map] in N. apply NoDup_cons_iff in N as [Nk N].
    rewrite touched_cons, IH by assumption. cbn [get fst snd]. unfold upd2. rewrite Nat.eqb_refl. cbn [andb].
    destruct (Nat.eqb_spec id k).
    - subst. rewrite (proj2 (get_None l k)) by assumption. reflexivity.
    - reflexivity.
  Qed.
  (** withdrawing a list of delegations *)
  Definition zeros (l : list nat) : dict num := map (fun id => (id, zero)) l.
  Lemma touches_zeros uid l w : foldM (fun w id => touch_delegation uid w id zero) l w = touches uid (zeros l) w.
  Proof. revert w. induction l as [|id l IH]; intros w; cbn; [reflexivity|]. destruct (touch_delegation uid w id zero); cbn; [apply IH | reflexivity]. Qed.
  Lemma touches_zeros_keys uid (d : dict num) w : foldM (fun w e => touch_delegation uid w (fst e) zero) d w = touches uid (zeros (keys d)) w.
  Proof. revert w. induction d as [|e d IH]; intros w; cbn; [reflexivity|]. destruct (touch_delegation uid w (fst e) zero); cbn; [apply IH | reflexivity]. Qed.
  Lemma zeros_keys l : keys (zeros l) = l.
  Proof. unfold keys, zeros. rewrite map_map. apply map_id. Qed.
  Lemma zeros_get l id : get (zeros l) id = if inb id l then Some zero else None.
  Proof. induction l as [|x l IH]; cbn; [reflexivity|]. destruct (Nat.eqb_spec id x); cbn; [reflexivity | exact IH]. Qed.
  Lemma zeros_In l id v : In (id, v) (zeros l) -> v = zero /\ In id l.
  Proof. unfold zeros. intros H. apply in_map_iff in H as (x & E & H). injection E as -> <-. now split. Qed.
  Lemma touched_zeros uid l al id : NoDup l -> touched_al uid (zeros l) al uid id = if inb id l then None else al uid id.
  Proof. intros N. rewrite touched_al_self by now rewrite zeros_keys. rewrite zeros_get. destruct (inb id l); [now rewrite MP | reflexivity]. Qed.
  Lemma zeros_inv m al ow uid l w w' : Inv m al ow w -> touches uid (zeros l) w = Ok w' -> Inv m (touched_al uid (zeros l) al) ow w'.
  Proof.
    intros I H. eapply touches_inv; [exact I | exact H | |].
    - intros id v Hi. apply zeros_In in Hi as [-> _]. now left.
    - intros id v r p Hi. apply zeros_In in Hi as [-> _]. congruence.
  Qed.

  (** ** agents *)
  Definition agents_ok (w : world A) : Prop :=
    NoDup (keys (w_agents w)) /\
    forall a ag, get (w_agents w) a = Some ag -> a_id ag = a /\
      (forall st, a_strategy ag = Some st -> NoDup (keys (s_alloc st)) /\ NoDup (keys (s_owned st))).
  (** an agent except for its allocations *)
  Definition same_agent (ag ag' : agent A) : Prop :=
    a_id ag' = a_id ag /\ a_profile ag' = a_profile ag /\ a_stake ag' = a_stake ag /\ a_cost ag' = a_cost ag /\ a_new ag' = a_new ag /\
    (a_strategy ag' = a_strategy ag \/ exists st al', a_strategy ag = Some st /\ a_strategy ag' = Some (mkStrategy al' (s_owned st))).
  Lemma same_agent_refl ag : same_agent ag ag.  Proof. repeat split; auto. Qed.
  Lemma same_agent_trans a b c : same_agent a b -> same_agent b c -> same_agent a c.
  Proof.
    intros (A1 & A2 & A3 & A4 & A5 & A6) (B1 & B2 & B3 & B4 & B5 & B6). repeat split; try congruence.
    destruct A6 as [E|(st & x & E & E')], B6 as [F|(st' & y & F & F')].
    - left. congruence.
    - right. exists st', y. split; congruence.
    - right. exists st, x. split; congruence.
    - right. rewrite E' in F. injection F as <-. exists st, y. now split.
  Qed.
  Definition agents_rel (w w' : world A) : Prop :=
    keys (w_agents w') = keys (w_agents w) /\
    forall a, match get (w_agents w) a with Some ag => exists ag', get (w_agents w') a = Some ag' /\ same_agent ag ag' | None => get (w_agents w') a = None end.
  Lemma agents_rel_refl w : agents_rel w w.
  Proof. split; [reflexivity|]. intros a. destruct (get (w_agents w) a) as [ag|]; [|reflexivity]. exists ag. split; [reflexivity | apply same_agent_refl]. Qed.
  Lemma agents_rel_trans w w1 w2 : agents_rel w w1 -> agents_rel w1 w2 -> agents_rel w w2.
  Proof.
    intros [K R] [K' R']. split; [congruence|]. intros a. specialize (R a). specialize (R' a). destruct (get (w_agents w) a) as [ag|].
    - destruct R as (ag1 & G1 & S1). rewrite G1 in R'. destruct R' as (ag2 & G2 & S2). exists ag2. split; [assumption | eapply same_agent_trans; eassumption].
    - now rewrite R in R'.
  Qed.
  Lemma agents_rel_eq w w' : w_agents w' = w_agents w -> agents_rel w w'.
  Proof. intros E. split; [now rewrite E|]. intros a. rewrite E. apply (proj2 (agents_rel_refl w) a). Qed.
  Lemma agents_rel_ow w w' a id : agents_rel w w' -> ow_of w' a id = ow_of w a id.
  Proof.
    intros [_ R]. specialize (R a). unfold ow_of. destruct (get (w_agents w) a) as [ag|].
    - destruct R as (ag' & -> & _ & _ & _ & _ & _ & [->|(st & x & -> & ->)]); reflexivity.
    - now rewrite R.
  Qed.

  (** ** remove_delegations *)
  Definition rd_static (p p' : pool A) : Prop := same_static p p' /\ (NoDup (keys (p_delegators p)) -> NoDup (keys (p_delegators p'))).
  Lemma remove_one_ok r id (w : world A) a w' : remove_one_delegation r id w a = Ok w' ->
    exists ag st v p, get (w_agents w) a = Some ag /\ a_strategy ag = Some st /\ get (s_alloc st) id = Some v /\ get (w_heap w) r = Some p /\
      w' = store (put_agent w a (agent_set_strategy (Some (mkStrategy (pop (s_alloc st) id) (s_owned st))) ag)) r (update_delegation zero a p).
  Proof.
    unfold remove_one_delegation. intros H. apply bind_ok in H as (ag & H1 & H). apply of_option_ok in H1. apply bind_ok in H as (st & H2 & H). apply of_option_ok in H2.
    apply bind_ok in H as (v & H3 & H). apply of_option_ok in H3. apply bind_ok in H as (p & H4 & [= <-]). apply of_option_ok in H4. cbn in H4. exists ag, st, v, p. auto.
  Qed.
  Record rd_spec (ds : list nat) (r id : nat) (p : pool A) (w w' : world A) (p' : pool A) : Prop := {
    rd_world : w' = with_agents (w_agents w') (with_heap (w_heap w') w);
    rd_heap : forall r', r' <> r -> get (w_heap w') r' = get (w_heap w) r';
    rd_pool : get (w_heap w') r = Some p';
    rd_same : same_static p p';
    rd_nd : NoDup (keys (p_delegators p'));
    rd_dels : forall b, get (p_delegators p') b = if inb b ds then None else get (p_delegators p) b;
    rd_np : forall rs, NP rs p -> NP rs p';
    rd_agents : agents_rel w w';
    rd_al : forall a id', al_of w' a id' = if inb a ds && Nat.eqb id' id then None else al_of w a id';
    rd_ok : agents_ok w';
    rd_other : forall a, ~ In a ds -> get (w_agents w') a = get (w_agents w) a
  }.
  Lemma remove_fold r id ds : forall w p w', agents_ok w -> get (w_heap w) r = Some p -> NoDup (keys (p_delegators p)) ->
    foldM (remove_one_delegation r id) ds w = Ok w' -> exists p', rd_spec ds r id p w w' p'.
  Proof.
    induction ds as [|a ds IH]; intros w p w' AO G N H; cbn in H.
    - injection H as <-. exists p. constructor; cbn; auto; [now destruct w | apply same_static_refl | apply agents_rel_refl].
    - apply bind_ok in H as (w1 & H1 & H). destruct (remove_one_ok _ _ _ _ _ H1) as (ag & st & v & p0 & Ga & Gs & Gv & Gp & ->).
      rewrite G in Gp. injection Gp as <-.
      set (ag1 := agent_set_strategy (Some (mkStrategy (pop (s_alloc st) id) (s_owned st))) ag) in *.
      set (w1 := store (put_agent w a ag1) r (update_delegation zero a p)) in *.
      destruct AO as [AN AO]. destruct (AO a ag Ga) as [Aid Ast]. destruct (Ast st Gs) as [Na No].
      assert (AO1 : agents_ok w1).
      { split; [cbn; now apply NoDup_set|]. intros b bg Gb. cbn in Gb. rewrite get_set in Gb. destruct (Nat.eqb_spec a b); [|now apply AO].
        subst b. injection Gb as <-. split; [exact Aid|]. intros st' [= <-]. cbn. split; [now apply NoDup_pop | assumption]. }
      assert (R1 : agents_rel w w1).
      { split; [cbn; apply keys_set_in; apply get_Some_key; eauto|]. intros b. cbn. rewrite get_set. destruct (Nat.eqb_spec a b).
        - subst b. rewrite Ga. exists ag1. split; [reflexivity|]. repeat split. right. exists st, (pop (s_alloc st) id). auto.
        - destruct (get (w_agents w) b) as [bg|]; [|reflexivity]. exists bg. split; [reflexivity | apply same_agent_refl]. }
      assert (AL1 : forall b id', al_of w1 b id' = if Nat.eqb b a && Nat.eqb id' id then None else al_of w b id').
      { intros b id'. unfold al_of. cbn. rewrite get_set, (Nat.eqb_sym b a). destruct (Nat.eqb_spec a b); cbn [andb].
        - subst b. rewrite Ga, Gs. cbn. rewrite get_pop by assumption. rewrite (Nat.eqb_sym id' id). destruct (Nat.eqb id id'); reflexivity.
        - reflexivity. }
      destruct (IH w1 (update_delegation zero a p) w' AO1) as (p' & R); [cbn; apply get_set_eq | now apply upd_nd | exact H |].
      exists p'. destruct R as [D1 D2 D3 D4 D5 D6 D7 D8 D9 D10 D11]. constructor; try assumption.
      + intros r' Hr. rewrite D2 by assumption. cbn. apply get_set_ne; congruence.
      + intros b. rewrite D6. rewrite upd_del by assumption. rewrite MP. unfold inb. cbn [existsb]. destruct (Nat.eqb b a); cbn [orb]; [now destruct (existsb (Nat.eqb b) ds) | reflexivity].
      + intros rs Hn. apply D7. apply NP_upd; auto.
      + eapply agents_rel_trans; eassumption.
      + intros b id'. rewrite D9, AL1. unfold inb. cbn [existsb]. destruct (Nat.eqb b a), (Nat.eqb id' id), (existsb (Nat.eqb b) ds); reflexivity.
      + intros b Hb. rewrite D11 by (intros ?; apply Hb; now right). cbn. apply get_set_ne. intros ->. apply Hb. now left.
  Qed.
  Lemma remove_delegations_spec w r p w' : agents_ok w -> w_simul w = false -> get (w_heap w) r = Some p -> NoDup (keys (p_delegators p)) ->
    remove_delegations w r = Ok w' -> exists p', rd_spec (keys (p_delegators p)) r (p_id p) p w w' p' /\ p_delegators p' = [].
  Proof.
    intros AO Hs G N H. unfold remove_delegations, deref in H. rewrite G in H. cbn [of_option bind] in H. apply bind_ok in H as (w1 & H1 & H).
    destruct (remove_fold _ _ _ _ _ _ AO G N H1) as (p' & R).
    assert (E : w_simul w1 = false) by (rewrite (rd_world _ _ _ _ _ _ _ R); exact Hs). rewrite E in H. injection H as <-.
    exists p'. split; [assumption|]. destruct (p_delegators p') as [|[b v] d] eqn:Ed; [reflexivity|]. exfalso.
    assert (D := rd_dels _ _ _ _ _ _ _ R b). rewrite Ed in D. cbn in D. rewrite Nat.eqb_refl in D.
    destruct (inb b (keys (p_delegators p))) eqn:Eb; [discriminate|]. apply inb_false in Eb. apply Eb. apply get_Some_key. eauto.
  Qed.
End Inv.
