(** Executing a strategy does not raise: under the invariant of Inv.v every operation of execute_strategy has a result. *)
From Coq Require Import ZArith List Bool Arith Lia Permutation Sorted.
From Verif Require Import Num Py Rewards SortedKeyList World Stakeholder ListFacts SLFacts Inv Exec.
Import ListNotations.
Open Scope nat_scope.

Section TotalExec.
  Context {A : Arith} (O : OrdLaws A) (MP : ltb (zero (a := A)) min_stake_unit = true).
  Variable NP : rss A -> pool A -> Prop.
  Variable PVT : Prop.
  Hypothesis NP_upd : forall rs p v a, NP rs p -> NoDup (keys (p_delegators p)) -> v = zero \/ ltb v min_stake_unit = false -> NP rs (update_delegation v a p).
  Hypothesis NP_private : PVT -> forall rs p, NP rs p -> NoDup (keys (p_delegators p)) -> ltb (p_pledge p) (p_stake p) = false ->
    (forall a v, get (p_delegators p) a = Some v -> ltb v min_stake_unit = false) -> p_delegators p = [].
  Implicit Types w : world A. Implicit Types p q : pool A. Implicit Types st new : strategy A.
  Notation Inv := (Inv NP PVT).
  Notation mid := (mid NP PVT).
  Notation own_st := (own_st NP).
  Notation num := (T A).
  Notation K1 := (fun p : pool A => Ok (pool_key p)).

  (** the myopic ranking key of every pool can be computed *)
  Definition kt (rs : rss A) : Prop := forall p, exists k, pool_key_myopic rs p = Ok k.

  Lemma rankm_remove_total m al ow w r p : Inv m al ow w -> kt (w_rss w) -> In r (values (w_pools w)) -> get (w_heap w) r = Some p ->
    exists l, rankm_remove w r = Ok (with_rankm l w).
  Proof.
    intros I K Hr G. destruct (K p) as (k & Hk). destruct (rank_ok_remove_total O _ _ _ _ _ _ _ _ (i_rankm _ _ _ _ _ _ I) Hr G Hk) as (l & Hl).
    exists l. unfold rankm_remove, deref. rewrite G. cbn [of_option bind]. rewrite Hk. cbn [bind]. now rewrite Hl.
  Qed.
  Lemma rankm_add_total w r p : kt (w_rss w) -> get (w_heap w) r = Some p -> exists l, rankm_add w r = Ok (with_rankm l w).
  Proof. intros K G. destruct (K p) as (k & Hk). unfold rankm_add, deref. rewrite G. cbn [of_option bind]. rewrite Hk. cbn. eauto. Qed.
  Lemma rank_add_total w r p : get (w_heap w) r = Some p -> exists l, rank_add w r = Ok (with_rank l w).
  Proof. intros G. unfold rank_add, deref. rewrite G. cbn. eauto. Qed.

  Lemma touch_total m al ow uid w id v r : Inv m al ow w -> kt (w_rss w) -> get (w_pools w) id = Some r -> exists w', touch_delegation uid w id v = Ok w'.
  Proof.
    intros I K G. destruct (i_reg _ _ _ _ _ _ I _ _ G) as (p & Gp & _). destruct (rankm_remove_total m al ow w r p I K (values_In _ _ _ G) Gp) as (l & Hl).
    unfold touch_delegation, the_pool. rewrite G. cbn [of_option bind]. rewrite Hl. cbn [bind]. unfold deref. cbn [w_heap with_rankm]. rewrite Gp. cbn [of_option bind].
    destruct (rankm_add_total (store (with_rankm l w) r (update_delegation v uid p)) r (update_delegation v uid p)) as (l' & Hl'); [exact K | cbn; apply get_set_eq | eauto].
  Qed.

  Lemma touches_total m ow uid l : forall al w, Inv m al ow w -> kt (w_rss w) ->
    (forall id v, In (id, v) l -> v = zero \/ ltb v min_stake_unit = false) ->
    (forall id v, In (id, v) l -> exists r, get (w_pools w) id = Some r) ->
    (forall id v r p, In (id, v) l -> v <> zero -> get (w_pools w) id = Some r -> get (w_heap w) r = Some p -> p_owner p <> uid /\ (PVT -> p_private p = false)) ->
    exists w', touches uid l w = Ok w'.
  Proof.
    unfold touches. induction l as [|[id v] l IH]; intros al w I K Hv Hp Ho; cbn [foldM]; [eauto|]. cbn [fst snd].
    destruct (Hp id v (or_introl eq_refl)) as (r & G). destruct (touch_total m al ow uid w id v r I K G) as (w1 & H1). rewrite H1. cbn [bind].
    assert (F := touch_frame _ _ _ _ _ H1). assert (Ef := tframe_fields _ _ _ F). destruct Ef as (Er & _ & _ & _ & _ & _ & _ & _ & Ep & _).
    eapply (IH _ w1).
    - eapply (touch_inv O MP NP PVT NP_upd); [exact I | exact H1 | apply (Hv id v); now left |]. intros Hz r0 p G1 G2. apply (Ho id v r0 p); auto. now left.
    - now rewrite Er.
    - intros id' v' H'. apply (Hv id' v'). now right.
    - intros id' v' H'. rewrite Ep. apply (Hp id' v'). now right.
    - intros id' v' r' p H' Hz G1 G2. rewrite Ep in G1. destruct (i_reg _ _ _ _ _ _ I _ _ G1) as (p0 & G0 & _). destruct F as (_ & _ & S). destruct (S r' p0 G0) as (p' & G' & Es).
      rewrite G2 in G'. injection G' as <-. unfold same_static in Es. rewrite Es. cbn. apply (Ho id' v' r' p0); auto. now right.
  Qed.
  Lemma zeros_total m al ow uid l w : Inv m al ow w -> kt (w_rss w) -> (forall id, In id l -> exists r, get (w_pools w) id = Some r) -> exists w', touches uid (zeros l) w = Ok w'.
  Proof.
    intros I K H. eapply touches_total; [exact I | exact K | | |].
    - intros id v J. apply zeros_In in J as [J _]. now left.
    - intros id v J. apply zeros_In in J as [_ J]. now apply H.
    - intros id v r p J Hz. apply zeros_In in J as [J _]. contradiction.
  Qed.

  (** ** remove_delegations *)
  Lemma remove_fold_total r id ds : forall w p, NoDup ds -> get (w_heap w) r = Some p -> (forall a, In a ds -> al_of w a id <> None) ->
    exists w', foldM (remove_one_delegation r id) ds w = Ok w'.
  Proof.
    induction ds as [|a ds IH]; intros w p N G H; cbn [foldM]; [eauto|]. apply NoDup_cons_iff in N as [Na N].
    assert (Ha := H a (or_introl eq_refl)). unfold al_of in Ha. destruct (get (w_agents w) a) as [ag|] eqn:Ga; [|congruence]. destruct (a_strategy ag) as [st|] eqn:Gs; [|congruence].
    destruct (get (s_alloc st) id) as [v|] eqn:Gv; [|congruence]. 
    set (ag1 := agent_set_strategy (Some (mkStrategy (pop (s_alloc st) id) (s_owned st))) ag).
    assert (E : remove_one_delegation r id w a = Ok (store (put_agent w a ag1) r (update_delegation zero a p))).
    { unfold remove_one_delegation, the_agent. rewrite Ga. cbn [of_option bind]. unfold the_strategy. rewrite Gs. cbn [of_option bind].
      rewrite Gv. cbn [of_option bind]. unfold deref. cbn [w_heap put_agent with_agents]. rewrite G. reflexivity. }
    rewrite E. cbn [bind].
    eapply IH; [exact N | cbn; apply get_set_eq |]. intros b Hb. unfold al_of. cbn. rewrite get_set_ne by congruence. apply (H b). now right.
  Qed.
  Lemma remove_total w r p : get (w_heap w) r = Some p -> NoDup (keys (p_delegators p)) -> (forall a, In a (keys (p_delegators p)) -> al_of w a (p_id p) <> None) ->
    exists w', remove_delegations w r = Ok w'.
  Proof.
    intros G N H. unfold remove_delegations, deref. rewrite G. cbn [of_option bind]. destruct (remove_fold_total r (p_id p) _ w p N G H) as (w' & ->). cbn. eauto.
  Qed.

  (** ** close_pool *)
  Lemma close_total m al ow uid w id r : Inv m al ow w -> kt (w_rss w) -> ghost uid al ow w -> ow uid id = Some r -> exists w', close_pool w id = Ok w'.
  Proof.
    intros I K Gh Ho. destruct (i_own _ _ _ _ _ _ I _ _ _ Ho) as (G1 & Hown). destruct (i_reg _ _ _ _ _ _ I _ _ G1) as (p & G2 & Eid & Hid & Nd & How & Hnp & Hpv).
    assert (Hv : In r (values (w_pools w))) by (eapply values_In; eassumption).
    destruct (rank_ok_remove_total O _ _ _ _ _ _ _ _ (i_rank _ _ _ _ _ _ I) Hv G2 eq_refl) as (l & Hl).
    destruct (K p) as (k & Hk). destruct (rank_ok_remove_total O _ _ _ _ _ _ _ _ (i_rankm _ _ _ _ _ _ I) Hv G2 Hk) as (lm & Hlm).
    unfold close_pool, the_pool. rewrite G1. cbn [of_option bind]. unfold rank_remove, deref at 1. rewrite G2. cbn [of_option bind]. rewrite Hl. cbn [bind].
    unfold rankm_remove, deref at 1. cbn [w_heap with_rank w_rss w_rankm]. rewrite G2. cbn [of_option bind]. rewrite Hk. cbn [bind]. rewrite Hlm. cbn [bind].
    destruct (remove_total (with_rankm lm (with_rank l w)) r p G2 Nd) as (w3 & ->); [|cbn; eauto].
    intros a Ha. apply get_Some_key in Ha as (v & Ha). rewrite Eid. apply (i_del _ _ _ _ _ _ I id r p a v G1 G2) in Ha.
    assert (Hne : a <> uid). { intros ->. destruct (i_al _ _ _ _ _ _ I _ _ _ Ha) as (_ & r1 & p1 & J1 & J2 & J3). apply J3. apply Hown. congruence. }
    destruct (Gh a id Hne) as [Ea _]. change (al_of w a id <> None). congruence.
  Qed.

  (** ** update_pool *)
  Lemma update_total m al ow uid w id ag st new : Inv m al ow w -> kt (w_rss w) -> agents_ok w -> w_simul w = false -> ghost uid al ow w ->
    get (w_agents w) uid = Some ag -> a_strategy ag = Some st -> a_new ag = Some new ->
    own_st w uid st new id -> (exists r0, get (s_owned st) id = Some r0 /\ ow uid id = Some r0) ->
    exists w', update_pool uid w id = Ok w'.
  Proof.
    intros I K AO Hs Gh Ga Gst Gnew (r & p & Gr & Hu & Gp & Eid & Eo & Hnp & Nd & Hm) (r0 & Gr0 & Ho).
    rewrite Gr0 in Hm. destruct Hm as (G0 & p0 & Gp0 & Hd).
    unfold update_pool, the_agent at 1. rewrite Ga. cbn [of_option bind]. rewrite Gnew. cbn [of_option bind].
    rewrite Gr. cbn [of_option bind]. unfold deref at 1. rewrite Gp. cbn [of_option bind].
    assert (Hdel0 : forall a v, get (p_delegators p0) a = Some v <-> al a id = Some v) by (intros; eapply i_del; eassumption).
    assert (Hself : al uid id = None).
    { destruct (al uid id) eqn:E; [|reflexivity]. destruct (i_al _ _ _ _ _ _ I _ _ _ E) as (_ & r1 & p1 & J1 & J2 & Hne). exfalso. apply Hne.
      destruct (i_own _ _ _ _ _ _ I _ _ _ Ho) as (_ & J). apply J. congruence. }
    assert (Huid : ~ In uid (keys (p_delegators p))).
    { intros J. apply get_Some_key in J as (v & J). rewrite Hd in J. apply Hdel0 in J. congruence. }
    assert (N0 : r0 <> r) by (intros ->; now apply (Hu id)).
    assert (W1 : exists w1 p1, (if p_private p && ltb (p_pledge p) (p_stake p) then remove_delegations w r else Ok w) = Ok w1 /\
              w1 = with_agents (w_agents w1) (with_heap (w_heap w1) w) /\ (forall r', r' <> r -> get (w_heap w1) r' = get (w_heap w) r') /\
              get (w_heap w1) r = Some p1 /\ get (w_agents w1) uid = Some ag).
    { destruct (p_private p && ltb (p_pledge p) (p_stake p)) eqn:Ec.
      - destruct (remove_total w r p Gp Nd) as (w1 & H1).
        { intros a Ha. assert (a <> uid) by (intros ->; contradiction). apply get_Some_key in Ha as (v & Ha). rewrite Hd in Ha. apply Hdel0 in Ha. rewrite Eid.
          destruct (Gh a id H) as [Ea _]. congruence. }
        destruct (remove_delegations_spec MP NP NP_upd w r p w1 AO Hs Gp Nd H1) as (p' & RD & Ed). destruct RD as [D1 D2 D3 D4 D5 D6 D7 D8 D9 D10 D11].
        exists w1, p'. split; [assumption|]. split; [exact D1|]. split; [exact D2|]. split; [exact D3|]. now rewrite D11.
      - exists w, p. split; [reflexivity|]. split; [now destruct w|]. split; [reflexivity|]. now split. }
    destruct W1 as (w1 & p1 & -> & W1 & Hh & Gr1 & Gu). cbn [bind]. unfold the_agent. cbn [w_agents with_pools]. rewrite Gu. cbn [of_option bind]. unfold the_strategy. rewrite Gst. cbn [of_option bind].
    rewrite Gr0. cbn [of_option bind].
    assert (Ef : w_rss w1 = w_rss w /\ w_rank w1 = w_rank w /\ w_rankm w1 = w_rankm w) by (rewrite W1; repeat split). destruct Ef as (Erss & Erank & Erankm).
    assert (Hv : In r0 (values (w_pools w))) by (eapply values_In; eassumption).
    destruct (rank_ok_remove_total O _ _ _ _ _ _ _ _ (i_rank _ _ _ _ _ _ I) Hv Gp0 eq_refl) as (l & Hl).
    destruct (K p0) as (k & Hk). destruct (rank_ok_remove_total O _ _ _ _ _ _ _ _ (i_rankm _ _ _ _ _ _ I) Hv Gp0 Hk) as (lm & Hlm). destruct (K p1) as (k' & Hk').
    unfold rank_remove, deref at 1. cbn [w_heap with_pools w_rank]. rewrite (Hh r0 N0), Gp0. cbn [of_option bind]. rewrite Erank, Hl. cbn [bind].
    unfold rank_add, deref at 1. cbn [w_heap with_pools with_rank w_rank]. rewrite Gr1. cbn [of_option bind].
    unfold rankm_remove, deref at 1. cbn [w_heap with_pools with_rank w_rank w_rankm w_rss]. rewrite (Hh r0 N0), Gp0. cbn [of_option bind]. rewrite Erss, Hk. cbn [bind]. rewrite Erankm, Hlm. cbn [bind].
    unfold rankm_add, deref. cbn [w_heap with_pools with_rank with_rankm w_rank w_rankm w_rss]. rewrite Gr1. cbn [of_option bind]. rewrite Erss, Hk'. cbn [bind]. eauto.
  Qed.

  (** ** open_pool *)
  Lemma open_total uid w id ag st r p : kt (w_rss w) -> get (w_agents w) uid = Some ag -> a_strategy ag = Some st -> get (s_owned st) id = Some r -> get (w_heap w) r = Some p ->
    exists w', open_pool uid w id = Ok w' /\ w_rss w' = w_rss w /\ w_agents w' = w_agents w /\ w_heap w' = w_heap w.
  Proof.
    intros K Ga Gst Gr Gp. unfold open_pool, the_agent. rewrite Ga. cbn [of_option bind]. unfold the_strategy. rewrite Gst. cbn [of_option bind]. rewrite Gr. cbn [of_option bind].
    unfold rank_add, deref. cbn [w_heap with_pools]. rewrite Gp. cbn [of_option bind]. destruct (K p) as (k & Hk).
    unfold rankm_add, deref. cbn [w_heap with_pools with_rank w_rss]. rewrite Gp. cbn [of_option bind]. rewrite Hk. cbn [bind]. eexists. split; [reflexivity|]. cbn. auto.
  Qed.
  Lemma open_all_total uid new ag ids : forall w, kt (w_rss w) -> get (w_agents w) uid = Some ag -> a_strategy ag = Some new ->
    (forall id, In id ids -> exists r p, get (s_owned new) id = Some r /\ get (w_heap w) r = Some p) -> exists w', foldM (open_pool uid) ids w = Ok w'.
  Proof.
    induction ids as [|id ids IH]; intros w K Ga Gst H; cbn [foldM]; [eauto|]. destruct (H id (or_introl eq_refl)) as (r & p & Gr & Gp).
    destruct (open_total uid w id ag new r p K Ga Gst Gr Gp) as (w1 & -> & E1 & E2 & E3). cbn [bind]. apply IH; rewrite ?E1, ?E2, ?E3; try assumption. intros id' Hi. apply H. now right.
  Qed.

  (** ** the loops of execute_strategy *)
  Lemma close_all_total m uid st new todo w0 ids : forall al ow w, kt (w_rss w0) -> NoDup ids -> mid m uid st new todo al ow w0 w ->
    (forall id, In id ids -> exists r, ow uid id = Some r) -> (forall id, In id ids -> ~ In id todo) -> exists w', foldM close_pool ids w = Ok w'.
  Proof.
    induction ids as [|id ids IH]; intros al ow w K N M Ho Ht; cbn [foldM]; [eauto|]. destruct (Ho id (or_introl eq_refl)) as (r & Hr).
    destruct (close_total m al ow uid w id r (m_inv _ _ _ _ _ _ _ _ _ _ _ M)) as (w1 & H1); [rewrite (proj1 (m_par _ _ _ _ _ _ _ _ _ _ _ M)); exact K | exact (m_ghost _ _ _ _ _ _ _ _ _ _ _ M) | exact Hr |].
    rewrite H1. cbn [bind]. apply NoDup_cons_iff in N as [N1 N].
    destruct (close_all MP NP PVT NP_upd m uid st new todo w0 [id] al ow w w1) as (al' & ow' & M' & _ & Eow & _); [constructor; [easy | constructor] | exact M | | | cbn [foldM]; rewrite H1; reflexivity |].
    { intros id' [<-|[]]. eauto. }
    { intros id' [<-|[]]. apply Ht. now left. }
    eapply (IH al' ow' w1 K N M').
    - intros id' Hi. rewrite Eow. cbn. destruct (Nat.eqb_spec id' id); [subst; contradiction|]. cbn. apply Ho. now right.
    - intros id' Hi. apply Ht. now right.
  Qed.
  Lemma update_all_total m uid st new todo w0 ids : forall al ow w, kt (w_rss w0) -> NoDup (ids ++ todo) -> mid m uid st new (ids ++ todo) al ow w0 w ->
    (forall id, In id ids -> exists r, get (s_owned st) id = Some r /\ ow uid id = Some r) -> exists w', foldM (update_pool uid) ids w = Ok w'.
  Proof.
    induction ids as [|id ids IH]; intros al ow w K N M Ho; cbn [foldM]; [eauto|].
    assert (M' := M). destruct M' as [M1 M2 M3 M4 (ag & Ga & Gst & Gnew) M6 M7 M8 M9 M10 M11 M12].
    destruct (update_total m al ow uid w id ag st new M1) as (w1 & H1); try assumption; [rewrite (proj1 M7); exact K | apply M6; now left | apply Ho; now left |].
    rewrite H1. cbn [bind].
    destruct (update_all O MP NP PVT NP_upd NP_private m uid st new (ids ++ todo) w0 [id] al ow w w1) as (al' & ow' & M' & _ & Eow & _);
      [exact N | exact M | | cbn [foldM]; rewrite H1; reflexivity |].
    { intros id' [<-|[]]. apply Ho. now left. }
    cbn [app] in N. apply NoDup_cons_iff in N as [N1 N]. eapply (IH al' ow' w1 K N M').
    intros id' Hi. destruct (Ho id' (or_intror Hi)) as (r & J1 & J2). exists r. split; [assumption|]. rewrite Eow. cbn. destruct (Nat.eqb_spec id' id); [|assumption].
    subst id'. exfalso. apply N1. apply in_app_iff. now left.
  Qed.

  Variable so : list nat -> list nat -> list nat.
  Hypothesis so_perm : forall c l, Permutation (so c l) l.

  Lemma execute_total m uid w ag st new : Inv m (al_of w) (ow_of w) w -> kt (w_rss w) -> agents_ok w -> w_simul w = false ->
    get (w_agents w) uid = Some ag -> a_strategy ag = Some st -> a_new ag = Some new -> staged NP PVT w uid st new ->
    exists w', execute_strategy so w uid = Ok w'.
  Proof.
    intros I KT AO Hs Ga Gst Gnew [S1 S2 S3 S4]. unfold execute_strategy, the_agent at 1. rewrite Ga. cbn [of_option bind].
    unfold the_strategy. rewrite Gst. cbn [of_option bind]. rewrite Gnew. cbn [of_option bind].
    assert (AO' := AO). destruct AO' as [AN AO']. destruct (AO' uid ag Ga) as [Aid Ast]. destruct (Ast st Gst) as [Na No]. clear Ast AO'.
    assert (Eal : forall id, al_of w uid id = get (s_alloc st) id) by (intros; unfold al_of; now rewrite Ga, Gst).
    assert (Eow : forall id, ow_of w uid id = get (s_owned st) id) by (intros; unfold ow_of; now rewrite Ga, Gst).
    set (old_a := keys (s_alloc st)) in *. set (new_a := keys (s_alloc new)) in *. set (old_o := keys (s_owned st)) in *. set (new_o := keys (s_owned new)) in *.
    rewrite touches_zeros. set (gone := so (old_a ++ new_a) (diff old_a new_a)) in *.
    assert (Ngone : NoDup gone) by (apply so_nodup; [exact so_perm|]; unfold diff; now apply NoDup_filter').
    destruct (zeros_total m _ _ uid gone w I KT) as (w1 & H1).
    { intros id Hi. unfold gone in Hi. rewrite (so_In so so_perm), diff_spec in Hi. destruct Hi as [Hi _]. apply get_Some_key in Hi as (v & Hv). rewrite <- Eal in Hv.
      destruct (i_al _ _ _ _ _ _ I _ _ _ Hv) as (_ & r & p & J & _). eauto. }
    rewrite H1. cbn [bind].
    (* delegations *)
    assert (I1 := zeros_inv O MP NP PVT NP_upd m _ _ uid gone w w1 I H1). assert (F1 := touches_frame uid _ _ _ H1).
    assert (E1 := tframe_fields _ _ _ F1). destruct E1 as (Er1 & _ & _ & _ & _ & _ & Ea1 & En1 & Ep1 & _ & Es1 & _).
    assert (Hown1 : forall id v r p, In (id, v) (s_alloc new) -> v <> zero -> get (w_pools w1) id = Some r -> get (w_heap w1) r = Some p -> p_owner p <> uid /\ (PVT -> p_private p = false)).
    { intros id v r p J Hz G1 G2. apply (In_get _ _ _ S1) in J. destruct (S3 id v J) as (_ & r0 & p0 & J1 & J2 & J3 & J4).
      rewrite Ep1 in G1. rewrite J1 in G1. injection G1 as <-. destruct F1 as (_ & _ & F1). destruct (F1 r0 p0 J2) as (p' & J5 & J6). rewrite G2 in J5. injection J5 as <-.
      unfold same_static in J6. rewrite J6. cbn. now split. }
    assert (Hbig : forall id v, In (id, v) (s_alloc new) -> v = zero \/ ltb v min_stake_unit = false).
    { intros id v J. right. apply (In_get _ _ _ S1) in J. now destruct (S3 id v J). }
    destruct (touches_total m _ uid (s_alloc new) _ w1 I1) as (w2 & H2); [now rewrite Er1 | exact Hbig | | exact Hown1 |].
    { intros id v J. apply (In_get _ _ _ S1) in J. destruct (S3 id v J) as (_ & r & p & J1 & _). rewrite Ep1. eauto. }
    change (exists w', (let! w2 := touches uid (s_alloc new) w1 in
      let! w3 := foldM close_pool (so (old_o ++ new_o) (diff old_o new_o)) w2 in
      let! w4 := foldM (update_pool uid) (so (new_o ++ old_o) (inter new_o old_o)) w3 in
      let! ag4 := the_agent w4 uid in
      let w5 := put_agent w4 uid (agent_set_new None (agent_set_strategy (a_new ag4) ag4)) in
      foldM (open_pool uid) (so (new_o ++ old_o) (diff new_o old_o)) w5) = Ok w').
    rewrite H2. cbn [bind].
    assert (I2 : Inv m (touched_al uid (s_alloc new) (touched_al uid (zeros gone) (al_of w))) (ow_of w) w2).
    { eapply touches_inv; [exact O | exact MP | exact NP_upd | exact I1 | exact H2 | exact Hbig | exact Hown1]. }
    assert (F2 := touches_frame uid _ _ _ H2). assert (F := tframe_trans _ _ _ _ _ F1 F2). clear F1 F2.
    set (al2 := touched_al uid (s_alloc new) (touched_al uid (zeros gone) (al_of w))) in *.
    assert (A2u : forall id, al2 uid id = get (s_alloc new) id).
    { intros id. unfold al2. rewrite touched_al_self by assumption. destruct (get (s_alloc new) id) as [v|] eqn:E; [destruct (S3 id v E) as [-> _]; reflexivity|].
      rewrite touched_zeros by assumption. destruct (inb id gone) eqn:Eg; [reflexivity|]. apply inb_false in Eg. rewrite Eal.
      apply get_None. intros J. apply Eg. unfold gone. rewrite (so_In so so_perm), diff_spec. split; [exact J|]. now apply get_None. }
    assert (A2o : forall a id, a <> uid -> al2 a id = al_of w a id) by (intros; unfold al2; now rewrite !touched_al_other).
    assert (E := tframe_fields _ _ _ F). destruct E as (Er & Erel & Eabs & Ephi & Esim & Etot & Ea & En & Ep & Erk & Es & Eidle).
    assert (Esp : same_params w w2) by (repeat split; assumption).
    (* touched pools belong to others *)
    assert (Ftouch : forall r, (forall id, get (w_pools w) id = Some r -> ow_of w uid id = Some r) -> get (w_heap w2) r = get (w_heap w) r).
    { intros r Hr. destruct F as (_ & F & _). apply F. intros id Hi G. specialize (Hr id G).
      destruct (i_own _ _ _ _ _ _ I _ _ _ Hr) as (_ & Hown). apply in_app_iff in Hi as [Hi|Hi].
      - assert (Hi' : In id (keys (zeros gone))) by exact Hi. rewrite zeros_keys in Hi'. unfold gone in Hi'. rewrite (so_In so so_perm), diff_spec in Hi'. destruct Hi' as [Hi' _].
        apply get_Some_key in Hi' as (v & Hv). rewrite <- Eal in Hv. destruct (i_al _ _ _ _ _ _ I _ _ _ Hv) as (_ & r' & p' & J1 & J2 & J3). apply J3. apply Hown. congruence.
      - apply get_Some_key in Hi as (v & Hv). destruct (S3 id v Hv) as (_ & r' & p' & J1 & J2 & J3 & _). apply J3. apply Hown. congruence. }
    assert (M2 : mid m uid st new new_o al2 (ow_of w) w w2).
    { constructor.
      - exact I2.
      - unfold agents_ok. rewrite Ea. exact AO.
      - congruence.
      - intros a id Hne. split; [unfold al_of; rewrite Ea; now apply A2o | unfold ow_of; now rewrite Ea].
      - exists ag. rewrite Ea. auto.
      - intros id Hi. assert (S4' := S4 id Hi). destruct S4' as (r & p & J1 & J2 & J3 & J4 & J5 & J6 & J7 & J8).
        eapply own_st_frame; [apply (S4 id Hi) | assumption | assumption | | |].
        + intros r' G. rewrite J1 in G. injection G as <-. rewrite Ep. split; [|assumption]. apply Ftouch. intros id' G. exfalso. now apply (J2 id').
        + intros r0 G. rewrite G in J8. apply Ftouch. intros id' G'. assert (id' = id) by (eapply (Inv_ref_id NP PVT); [exact I | exact G' | tauto]). subst id'. now rewrite Eow.
        + now rewrite Ep.
      - exact Esp.
      - exact En.
      - exact Es.
      - now apply agents_rel_eq.
      - intros id r p J1 J2 J3. rewrite Ep. split; [assumption|]. now destruct F as (_ & _ & F); apply F.
      - intros a id v Hne J. now rewrite A2o in J. }
    (* closing *)
    assert (Nclose : NoDup (so (old_o ++ new_o) (diff old_o new_o))) by (apply so_nodup; [exact so_perm|]; unfold diff; now apply NoDup_filter').
    destruct (close_all_total m uid st new new_o w _ al2 (ow_of w) w2 KT Nclose M2) as (w3 & H3).
    { intros id Hi. rewrite (so_In so so_perm), diff_spec in Hi. destruct Hi as [Hi _]. apply get_Some_key in Hi as (r & Hr). exists r. now rewrite Eow. }
    { intros id Hi. rewrite (so_In so so_perm), diff_spec in Hi. tauto. }
    rewrite H3. cbn [bind].
    destruct (close_all MP NP PVT NP_upd m uid st new new_o w _ al2 (ow_of w) w2 w3 Nclose M2) as (al3 & ow3 & M3 & Eal3 & Eow3 & _); [| | exact H3 |].
    { intros id Hi. rewrite (so_In so so_perm), diff_spec in Hi. destruct Hi as [Hi _]. apply get_Some_key in Hi as (r & Hr). exists r. now rewrite Eow. }
    { intros id Hi. rewrite (so_In so so_perm), diff_spec in Hi. tauto. }
    assert (A3u : forall id, al3 uid id = get (s_alloc new) id).
    { intros id. rewrite <- A2u. apply Eal3. destruct (get (s_alloc new) id) as [v|] eqn:E; [|left; now rewrite A2u].
      right. rewrite (so_In so so_perm), diff_spec. intros [Hi _]. apply get_Some_key in Hi as (r & Hr). destruct (S3 id v E) as (_ & r' & p' & J1 & J2 & J3 & _).
      rewrite <- Eow in Hr. destruct (i_own _ _ _ _ _ _ I _ _ _ Hr) as (J4 & J5). apply J3, J5. congruence. }
    (* updating *)
    set (upd := so (new_o ++ old_o) (inter new_o old_o)) in *. set (opn := so (new_o ++ old_o) (diff new_o old_o)) in *.
    assert (Nupd : NoDup upd) by (apply so_nodup; [exact so_perm|]; unfold inter; now apply NoDup_filter').
    assert (Nopn : NoDup opn) by (apply so_nodup; [exact so_perm|]; unfold diff; now apply NoDup_filter').
    assert (Iupd : forall id, In id upd <-> In id new_o /\ In id old_o) by (intros; unfold upd; now rewrite (so_In so so_perm), inter_spec).
    assert (Iopn : forall id, In id opn <-> In id new_o /\ ~ In id old_o) by (intros; unfold opn; now rewrite (so_In so so_perm), diff_spec).
    assert (Nall : NoDup (upd ++ opn)).
    { clear -Nupd Nopn Iupd Iopn. assert (D : forall x, In x upd -> ~ In x opn) by (intros x; rewrite Iupd, Iopn; tauto). clear Iupd Iopn.
      induction upd as [|x l IH]; cbn; [assumption|]. apply NoDup_cons_iff in Nupd as [X1 X2]. constructor; [|apply IH; [assumption | intros y Hy; apply D; now right]].
      rewrite in_app_iff. intros [Y|Y]; [now apply X1 | now apply (D x (or_introl eq_refl))]. }
    assert (M3' : mid m uid st new (upd ++ opn) al3 ow3 w w3).
    { destruct M3 as [B1 B2 B3 B4 B5 B6 B7 B8 B9 B10 B11 B12]. constructor; try assumption. intros id Hi. apply B6. apply in_app_iff in Hi as [Hi|Hi]; [apply Iupd in Hi | apply Iopn in Hi]; tauto. }
    assert (Hold : forall id, In id upd -> exists r, get (s_owned st) id = Some r /\ ow3 uid id = Some r).
    { intros id Hi. apply Iupd in Hi as [Hn Ho]. assert (Ho' := Ho). apply get_Some_key in Ho' as (r & Hr). exists r. split; [assumption|]. rewrite Eow3.
      rewrite (proj2 (inb_false id _)); [now rewrite Eow|]. rewrite (so_In so so_perm), diff_spec. tauto. }
    destruct (update_all_total m uid st new opn w upd al3 ow3 w3 KT Nall M3' Hold) as (w4 & H4). rewrite H4. cbn [bind].
    destruct (update_all O MP NP PVT NP_upd NP_private m uid st new opn w upd al3 ow3 w3 w4 Nall M3' Hold H4) as (al4 & ow4 & M4 & Eal4 & Eow4 & _).
    destruct M4 as [B1 B2 B3 B4 (ag4 & Ga4 & Gst4 & Gnew4) B6 B7 B8 B9 B10 B11 B12].
    unfold the_agent. rewrite Ga4. cbn [of_option bind]. rewrite Gnew4.
    eapply open_all_total; [cbn; rewrite (proj1 B7); exact KT | cbn; apply get_set_eq | reflexivity |].
    intros id Hi. destruct (B6 id Hi) as (r & p & J1 & J2 & J3 & _). exists r, p. now split.
  Qed.
End TotalExec.
