(** Properties of every state of a run with agents acting one at a time, in any arithmetic with a total preorder: C13, C15, C17 (first part), C23. *)
From Coq Require Import ZArith List Bool Arith Lia Permutation Sorted.
From Verif Require Import Num Py Rewards SortedKeyList World Stakeholder Sched Sim Init Reach Spec ListFacts SLFacts Greedy Inv Static Exec Eval Step SimInv.
Import ListNotations.
Open Scope nat_scope.

Section Facts.
  Context {A : Arith} (O : OrdLaws A) (MP : ltb (zero (a := A)) min_stake_unit = true).
  Variable so : list nat -> list nat -> list nat.
  Hypothesis so_perm : set_order so.
  Notation num := (T A).
  Notation NPt := (fun (_ : rss A) (_ : pool A) => True).
  Notation AGt := (fun (_ : rss A) (_ : num) => True).
  Notation TGt := (fun _ : num => True).

  (** the invariant with nothing said about amounts *)
  Definition plain_good (m : nat) (w : world A) : Prop := good NPt False AGt m w.

  Lemma plain_step m w uid w' : plain_good m w -> agent_step so w uid = Ok w' -> plain_good m w' /\ (step_idle so uid w w' \/ step_move so NPt False TGt m uid w w').
  Proof. apply agent_step_good; auto. intros []. Qed.

  Lemma plain_simgood g profiles stakes costs s0 (X : world A -> Prop) : init g profiles stakes costs = Ok s0 -> one_at_a_time g -> X (s_w s0) ->
    simgood NPt False AGt (fun _ => True) (fun _ => True) True (Z.to_nat (r_k (w_rss (s_w s0)) + 1)) X s0.
  Proof. intros. eapply init_simgood; eauto. Qed.

  Lemma plain_visible g profiles stakes costs s0 w : init g profiles stakes costs = Ok s0 -> one_at_a_time g -> visible so s0 w ->
    plain_good (Z.to_nat (r_k (w_rss (s_w s0)) + 1)) w.
  Proof.
    intros H1 H2 V. assert (G := plain_simgood _ _ _ _ _ (fun _ => True) H1 H2 I).
    eapply (visible_good O MP so so_perm NPt False AGt TGt) in V; [destruct V as [V _]; exact V | auto.. | exact G]; auto; try (intros []).
  Qed.
  Lemma plain_reach g profiles stakes costs s0 s : init g profiles stakes costs = Ok s0 -> one_at_a_time g -> reach so s0 s ->
    simgood NPt False AGt (fun _ => True) (fun _ => True) True (Z.to_nat (r_k (w_rss (s_w s0)) + 1)) (fun _ => True) s.
  Proof.
    intros H1 H2 R. assert (G := plain_simgood _ _ _ _ _ (fun _ => True) H1 H2 I).
    eapply (reach_good O MP so so_perm NPt False AGt TGt) in R; [exact R | auto.. | exact G]; auto; try (intros []).
  Qed.

  (** from the invariant to the vocabulary of the specification *)
  Lemma rank_ok_spec m K (w : world A) (l : sl A) : NoDup (values (w_pools w)) -> rank_ok K (w_heap w) m (values (w_pools w)) l -> complete_and_sorted w m K (sl_elems l).
  Proof.
    intros N (S & P & F). split; [exact P|]. split; [exact N|]. exists (map fst l). split.
    - unfold sl_elems. clear P S. induction l as [|[k e] l IH]; cbn; [reflexivity|]. rewrite IH; [|intros; apply F; now right].
      assert (E : current_key w K e = Ok k). { specialize (F k e (or_introl eq_refl)). destruct e as [r|]; cbn; [|now rewrite F]. destruct F as (p & G & E). unfold deref. now rewrite G. }
      rewrite E. reflexivity.
    - unfold sl_sorted, sorted in S. clear P F. induction S as [|e l S IH F]; cbn; constructor; [assumption|]. rewrite Forall_forall in *. intros k J. apply in_map_iff in J as (e' & <- & J). now apply F.
  Qed.
  Section Good.
    Variables (NP : rss A -> pool A -> Prop) (PVT : Prop) (AG : rss A -> num -> Prop) (m : nat) (w : world A).
    Hypothesis G : good NP PVT AG m w.
    Lemma good_records id a v : records w id a v <-> al_of w a id = Some v.
    Proof.
      split.
      - intros (p & (r & G1 & G2) & J). now apply (i_del _ _ _ _ _ _ (g_inv _ _ _ _ _ G) id r p a v G1 G2).
      - intros J. destruct (i_al _ _ _ _ _ _ (g_inv _ _ _ _ _ G) a id v J) as (_ & r & p & G1 & G2 & _). exists p. split; [now exists r|].
        now apply (i_del _ _ _ _ _ _ (g_inv _ _ _ _ _ G) id r p a v G1 G2).
    Qed.
    Lemma al_of_allocates a id v : al_of w a id = Some v <-> allocates w a id v.
    Proof.
      unfold al_of, allocates, plays. split.
      - intros H. destruct (get (w_agents w) a) as [ag|]; [|discriminate]. destruct (a_strategy ag) as [st|] eqn:E; [|discriminate]. exists ag, st. auto.
      - intros (ag & st & (-> & ->) & H). exact H.
    Qed.
    Lemma ow_of_operates a id p : (exists r, ow_of w a id = Some r /\ get (w_heap w) r = Some p) <-> operates w a id p.
    Proof.
      unfold ow_of, operates, plays. split.
      - intros (r & H & Gp). destruct (get (w_agents w) a) as [ag|]; [|discriminate]. destruct (a_strategy ag) as [st|] eqn:E; [|discriminate]. exists ag, st, r. auto.
      - intros (ag & st & r & (E1 & E2) & H & Gp). rewrite E1, E2. eauto.
    Qed.
    Lemma good_operates a id p : operates w a id p <-> active w id p /\ p_owner p = a.
    Proof.
      rewrite <- ow_of_operates. split.
      - intros (r & H & Gp). destruct (i_own _ _ _ _ _ _ (g_inv _ _ _ _ _ G) a id r H) as [G1 G2]. split; [now exists r | now apply G2].
      - intros ((r & G1 & G2) & <-). exists r. split; [|assumption]. destruct (i_reg _ _ _ _ _ _ (g_inv _ _ _ _ _ G) id r G1) as (p' & G2' & _ & _ & _ & H & _). congruence.
    Qed.
    Lemma good_active id p : active w id p -> p_id p = id /\ 1 <= id <= w_idseq w /\ NoDup (keys (p_delegators p)) /\ NP (w_rss w) p /\ (PVT -> p_private p = true -> p_delegators p = []).
    Proof. intros (r & G1 & G2). destruct (i_reg _ _ _ _ _ _ (g_inv _ _ _ _ _ G) id r G1) as (p' & G2' & J). assert (p' = p) as -> by congruence. tauto. Qed.
  End Good.
End Facts.

(** * C13 *)
Theorem C13_rankings_complete_and_sorted : forall (A : Arith), OrdLaws A -> ltb (zero (a := A)) min_stake_unit = true ->
  forall so g profiles stakes costs (s0 : sim A) w, set_order so -> init g profiles stakes costs = Ok s0 -> one_at_a_time g -> visible so s0 w ->
  let m := Z.to_nat (r_k (w_rss (s_w s0)) + 1) in
  complete_and_sorted w m (fun p => Ok (opp (p_des p), opp (p_pp p), Z.of_nat (p_id p))) (sl_elems (w_rank w)) /\
  complete_and_sorted w m (fun p => let! cp := current_profit (w_rss w) (p_stake p) (p_pledge p) (p_cost p) in
                                    Ok (opp (desirability (p_margin p) cp), zero, Z.of_nat (p_id p))) (sl_elems (w_rankm w)).
Proof.
  intros A O MP so g profiles stakes costs s0 w SO H1 H2 V m. assert (G := plain_visible O MP so SO _ _ _ _ _ _ H1 H2 V). destruct G as [I _ _ _].
  assert (N := Inv_refs_nodup _ _ _ _ _ _ I). split; (apply rank_ok_spec; [exact N|]); apply I.
Qed.

(** * C15 *)
Theorem C15_delegations_recorded_on_both_sides : forall (A : Arith), OrdLaws A -> ltb (zero (a := A)) min_stake_unit = true ->
  forall so g profiles stakes costs (s0 : sim A) w, set_order so -> init g profiles stakes costs = Ok s0 -> one_at_a_time g -> visible so s0 w ->
  (forall a id v, allocates w a id v <-> records w id a v) /\
  (forall id p, active w id p -> NoDup (keys (p_delegators p))) /\ (forall a ag st, plays w a ag st -> NoDup (keys (s_alloc st))).
Proof.
  intros A O MP so g profiles stakes costs s0 w SO H1 H2 V. assert (G := plain_visible O MP so SO _ _ _ _ _ _ H1 H2 V). split; [|split].
  - intros a id v. rewrite (good_records _ _ _ _ _ G), al_of_allocates. reflexivity.
  - intros id p J. now destruct (good_active _ _ _ _ _ G id p J) as (_ & _ & N & _).
  - intros a ag st (J1 & J2). destruct (g_ok _ _ _ _ _ G) as [_ K]. now apply (K a ag J1).
Qed.
(** the pools an agent says it operates are the active pools that say it is their owner *)
Theorem C15_pools_recorded_on_both_sides : forall (A : Arith), OrdLaws A -> ltb (zero (a := A)) min_stake_unit = true ->
  forall so g profiles stakes costs (s0 : sim A) w, set_order so -> init g profiles stakes costs = Ok s0 -> one_at_a_time g -> visible so s0 w ->
  forall a id p, operates w a id p <-> active w id p /\ p_owner p = a.
Proof.
  intros A O MP so g profiles stakes costs s0 w SO H1 H2 V. assert (G := plain_visible O MP so SO _ _ _ _ _ _ H1 H2 V).
  intros. apply (good_operates _ _ _ _ _ G).
Qed.

(** * C17 *)
Theorem C17_no_delegation_to_own_pools : forall (A : Arith), OrdLaws A -> ltb (zero (a := A)) min_stake_unit = true ->
  forall so g profiles stakes costs (s0 : sim A) w, set_order so -> init g profiles stakes costs = Ok s0 -> one_at_a_time g -> visible so s0 w ->
  forall a id v, allocates w a id v -> ltb v min_stake_unit = false /\ exists p, active w id p /\ p_owner p <> a.
Proof.
  intros A O MP so g profiles stakes costs s0 w SO H1 H2 V a id v J. assert (G := plain_visible O MP so SO _ _ _ _ _ _ H1 H2 V).
  apply al_of_allocates in J. destruct (i_al _ _ _ _ _ _ (g_inv _ _ _ _ _ G) a id v J) as (K & r & p & G1 & G2 & G3). split; [assumption|]. exists p. split; [now exists r | assumption].
Qed.

(** * C23 *)
(** all states of a run in order of time, latest first: before and after every round, and after every activation *)
Section History.
  Context {A : Arith}.
  Variable so : list nat -> list nat -> list nat.
  Fixpoint scan (evs : list event) (w : world A) : list (world A) :=
    match evs with
    | [] => []
    | e :: evs' => match do_event so w e with Ok w' => w' :: scan evs' w' | Err _ => [] end
    end.
  Definition round_states (ch : choices) (s : sim A) : list (world A) :=
    if (s_maxit s <=? Z.of_nat (s_steps s))%Z then []
    else match round_events (c_sched (s_c s)) ch (keys (w_agents (s_w s))) with Ok evs => scan evs (s_w s) | Err _ => [] end.
  Inductive history (s0 : sim A) : sim A -> list (world A) -> Prop :=
  | hist_start : history s0 s0 [s_w s0]
  | hist_step ch s s' ws : history s0 s ws -> sim_step so ch s = Ok s' -> history s0 s' (s_w s' :: rev (round_states ch s) ++ ws).
  Lemma history_reach s0 s ws : history s0 s ws -> reach so s0 s.
  Proof. induction 1; [constructor | econstructor; eassumption]. Qed.
End History.

Section Ids.
  Context {A : Arith} (O : OrdLaws A) (MP : ltb (zero (a := A)) min_stake_unit = true).
  Variable so : list nat -> list nat -> list nat.
  Hypothesis so_perm : set_order so.
  Notation num := (T A).
  Notation NPt := (fun (_ : rss A) (_ : pool A) => True).
  Notation AGt := (fun (_ : rss A) (_ : num) => True).
  Notation TGt := (fun _ : num => True).
  Definition ids_kept (w w' : world A) : Prop := w_idseq w <= w_idseq w' /\
    forall id p', active w' id p' -> (exists p, active w id p /\ p_owner p = p_owner p') \/ w_idseq w < id.
  Lemma ids_kept_refl w : ids_kept w w.
  Proof. split; [lia|]. intros id p J. left. eauto. Qed.
  Lemma ids_kept_trans w w1 w2 : ids_kept w w1 -> ids_kept w1 w2 -> ids_kept w w2.
  Proof.
    intros [L1 K1] [L2 K2]. split; [lia|]. intros id p2 J. destruct (K2 id p2 J) as [(p1 & J1 & E1)|J1]; [|right; lia].
    destruct (K1 id p1 J1) as [(p & J0 & E0)|J0]; [left; exists p; split; [assumption | congruence] | right; lia].
  Qed.
  Lemma static_owner (p p' : pool A) : same_static p p' -> p_owner p' = p_owner p.
  Proof. unfold same_static. intros ->. reflexivity. Qed.
  Lemma step_ids_kept m w uid w' : plain_good m w -> agent_step so w uid = Ok w' -> ids_kept w w'.
  Proof.
    intros G H. destruct (plain_step O MP so so_perm m w uid w' G H) as [G' [(w2 & E & Ea & _ & Ew)|(ag & st & w2 & new & w3 & Ga & Gst & I2 & E & M & X & Hh & _ & Ew)]].
    - destruct E as ((_ & _ & _ & _ & _ & _ & _ & Ep & _) & En & Es & E & _). rewrite Ew. split; [cbn; exact Es|].
      intros id p' (r & G1 & G2). cbn in G1, G2. rewrite Ep in G1. destruct (i_reg _ _ _ _ _ _ (g_inv _ _ _ _ _ G) id r G1) as (p & G3 & _). destruct (E r p G3) as (p2 & G4 & S). left. exists p.
      split; [now exists r|]. rewrite G4 in G2. injection G2 as <-. symmetry. now apply static_owner.
    - assert (E' := E). destruct E' as ((Er & _ & _ & _ & _ & _ & Ea & Ep & _) & En & Es & Eh & _). split; [rewrite Ew; cbn; rewrite (x_seq _ _ _ _ _ X); exact Es|].
      intros id p' J. destruct (proj2 (good_operates _ _ _ _ _ G' (p_owner p') id p') (conj J eq_refl)) as (ag' & st' & r & (P1 & P2) & P3 & P4). rewrite Ew in P1, P4. cbn in P1, P4.
      destruct (Nat.eq_dec (p_owner p') uid) as [Eo|Ne].
      + rewrite Eo in P1. rewrite (x_self _ _ _ _ _ X) in P1. injection P1 as <-. cbn in P2. injection P2 as <-.
        destruct M as [(M1 & _)|(w1 & n & E1 & En1 & Es1 & Hn & M)]; [rewrite M1 in P3; discriminate|].
        destruct M as (pledge & cost & _ & _ & _ & _ & Hm & _). destruct (Hm id r P3) as (_ & p2 & K1 & K2 & K3 & _ & K4).
        destruct (get (s_owned st) id) as [r0|] eqn:E0; [left|right; lia].
        assert (Ow : ow_of w uid id = Some r0) by (unfold ow_of; now rewrite Ga, Gst).
        destruct (i_own _ _ _ _ _ _ (g_inv _ _ _ _ _ G) uid id r0 Ow) as [G1 G2]. destruct (i_reg _ _ _ _ _ _ (g_inv _ _ _ _ _ G) id r0 G1) as (p0 & G3 & _).
        exists p0. split; [now exists r0|]. rewrite Eo. now apply G2.
      + assert (Y := x_others _ _ _ _ _ X (p_owner p') Ne). rewrite Ea in Y. destruct (get (w_agents w) (p_owner p')) as [ag0|] eqn:Ga0; [|congruence].
        destruct Y as (ag1 & Y1 & (_ & _ & _ & _ & _ & Y2)). rewrite P1 in Y1. injection Y1 as <-. left.
        assert (exists st0, a_strategy ag0 = Some st0 /\ s_owned st0 = s_owned st') as (st0 & Z1 & Z2).
        { destruct Y2 as [Y2|(st0 & al' & Y2 & Y3)]; [exists st'; split; [congruence | reflexivity]|]. exists st0. split; [assumption|]. rewrite P2 in Y3. injection Y3 as ->. reflexivity. }
        assert (Ow : ow_of w (p_owner p') id = Some r) by (unfold ow_of; rewrite Ga0, Z1, Z2; exact P3).
        destruct (i_own _ _ _ _ _ _ (g_inv _ _ _ _ _ G) _ id r Ow) as [G1 G2]. destruct (i_reg _ _ _ _ _ _ (g_inv _ _ _ _ _ G) id r G1) as (p0 & G3 & _).
        exists p0. split; [now exists r | now apply G2].
  Qed.
End Ids.

Section Ids2.
  Context {A : Arith} (O : OrdLaws A) (MP : ltb (zero (a := A)) min_stake_unit = true).
  Variable so : list nat -> list nat -> list nat.
  Hypothesis so_perm : set_order so.
  Notation num := (T A).
  Notation NPt := (fun (_ : rss A) (_ : pool A) => True).
  Notation AGt := (fun (_ : rss A) (_ : num) => True).

  Definition chain (ws : list (world A)) : Prop := ForallOrdPairs (fun later earlier => ids_kept earlier later) ws.
  Lemma chain_app l1 l2 : chain l1 -> chain l2 -> (forall x y, In x l1 -> In y l2 -> ids_kept y x) -> chain (l1 ++ l2).
  Proof.
    induction 1 as [|x l1 F C IH]; intros C2 H; cbn; [assumption|]. constructor.
    - apply Forall_app. split; [assumption|]. apply Forall_forall. intros y J. apply H; [now left | assumption].
    - apply IH; [assumption|]. intros; apply H; [now right | assumption].
  Qed.
  Lemma scan_ok m : forall evs (w w' : world A), only_steps evs -> plain_good m w -> foldM (do_event so) evs w = Ok w' ->
    (forall v, In v (scan so evs w) -> ids_kept w v /\ ids_kept v w') /\ chain (rev (scan so evs w)) /\ ids_kept w w' /\ plain_good m w' /\ (forall v, In v (scan so evs w) -> plain_good m v).
  Proof.
    induction evs as [|e evs IH]; intros w w' S G H; cbn [scan foldM] in *.
    - injection H as <-. split; [intros ? []|]. split; [constructor|]. split; [apply ids_kept_refl|]. split; [assumption | intros ? []].
    - apply bind_ok in H as (w1 & H1 & H). rewrite H1. inversion S as [|? ? (a & ->) S']; subst. cbn in H1.
      assert (K1 := step_ids_kept O MP so so_perm m w a w1 G H1). destruct (plain_step O MP so so_perm m w a w1 G H1) as [G1 _].
      destruct (IH w1 w' S' G1 H) as (C1 & C2 & C3 & C4 & C5). split; [|split; [|split; [|split]]].
      + intros v [<-|J]; [now split|]. destruct (C1 v J). split; [eapply ids_kept_trans; eassumption | assumption].
      + cbn [rev]. apply chain_app; [assumption | repeat constructor|]. intros x y Jx [<-|[]]. rewrite <- in_rev in Jx. now apply C1.
      + eapply ids_kept_trans; eassumption.
      + assumption.
      + intros v [<-|J]; [assumption | now apply C5].
  Qed.
  Lemma repriced_ids_kept m (w w' : world A) : plain_good m w -> repriced w w' -> ids_kept w w'.
  Proof.
    intros G (Ea & Ep & En & Es & Ei & Et & H). split; [lia|]. intros id p' (r & G1 & G2). rewrite Ep in G1. destruct (H id r G1) as (p & p2 & J1 & J2 & J3).
    left. exists p. split; [now exists r|]. rewrite G2 in J2. injection J2 as <-. apply reprice_fields in J3. decompose [and] J3. congruence.
  Qed.
  Lemma idle_ids_kept (w : world A) b : ids_kept w (with_idle b w).
  Proof. split; [cbn; lia|]. intros id p J. left. exists p. split; [exact J | reflexivity]. Qed.

  Lemma history_chain g profiles stakes costs s0 s ws : init g profiles stakes costs = Ok s0 -> one_at_a_time g -> history so s0 s ws ->
    let m := Z.to_nat (r_k (w_rss (s_w s0)) + 1) in
    (forall w, In w ws -> plain_good m w /\ ids_kept w (s_w s)) /\ chain ws.
  Proof.
    intros H1 H2 H m. induction H as [|ch s s' ws H IH Hs].
    - assert (G := plain_reach O MP so so_perm _ _ _ _ _ _ H1 H2 (reach_start _ so s0)). split; [|repeat constructor]. intros w [<-|[]]. split; [apply G | apply ids_kept_refl].
    - assert (G := plain_reach O MP so so_perm _ _ _ _ _ _ H1 H2 (history_reach so _ _ _ H)).
      assert (G' := plain_reach O MP so so_perm _ _ _ _ _ _ H1 H2 (reach_step _ so _ _ _ _ (history_reach so _ _ _ H) Hs)). fold m in G, G'.
      destruct IH as [IH1 IH2].
      assert (Z : ids_kept (s_w s) (s_w s') /\ chain (rev (round_states so ch s)) /\ forall v, In v (round_states so ch s) -> plain_good m v /\ ids_kept (s_w s) v /\ ids_kept v (s_w s')).
      { unfold round_states. apply sim_step_cases in Hs as [(L & ->)|(L & w & Hw & C)].
        - destruct (Z.leb_spec (s_maxit s) (Z.of_nat (s_steps s))); [|lia]. split; [apply ids_kept_refl|]. split; [constructor | intros ? []].
        - destruct (Z.leb_spec (s_maxit s) (Z.of_nat (s_steps s))); [lia|]. unfold schedule_step in Hw. apply bind_ok in Hw as (evs & Hev & Hw). rewrite Hev.
          assert (S : only_steps evs) by (eapply round_only_steps; [apply G | exact Hev]).
          destruct (scan_ok m evs (s_w s) w S (proj1 (sg_ok _ _ _ _ _ _ _ _ _ G)) Hw) as (D1 & D2 & D3 & D4 & D5).
          assert (K : ids_kept w (s_w s')).
          { destruct C as [(_ & ->)|[(_ & _ & ->)|[(_ & _ & _ & s4 & H4 & ->)|(_ & _ & _ & ->)]]]; try apply idle_ids_kept; [|apply ids_kept_refl].
            apply (ids_kept_trans _ (s_w s4)); [|apply idle_ids_kept].
            assert (G3 : simgood NPt False AGt (fun _ => True) (fun _ => True) True m (fun _ => True) (noted s w)).
            { destruct G. constructor; try assumption. split; [exact D4|]. split; exact I. }
            destruct (change_phase_repriced O NPt False AGt (fun _ => True) (fun _ => True) True) with (m := m) (X := fun _ : world A => True) (s := noted s w) (s' := s4) as (_ & _ & R); auto.
            eapply repriced_ids_kept; [|exact R]. exact D4. }
          split; [eapply ids_kept_trans; eassumption|]. split; [assumption|]. intros v J. destruct (D1 v J) as [J1 J2]. split; [now apply D5|]. split; [assumption | eapply ids_kept_trans; eassumption]. }
      destruct Z as (Z1 & Z2 & Z3). split.
      + intros w [<-|J]; [split; [apply G' | apply ids_kept_refl]|]. apply in_app_iff in J as [J|J].
        * rewrite <- in_rev in J. destruct (Z3 w J) as (? & _ & ?). now split.
        * destruct (IH1 w J) as [J1 J2]. split; [assumption | eapply ids_kept_trans; eassumption].
      + constructor.
        * apply Forall_app. split; apply Forall_forall; intros w J; [rewrite <- in_rev in J; now apply Z3 | eapply ids_kept_trans; [apply (IH1 w J) | exact Z1]].
        * apply chain_app; [assumption | assumption|]. intros x y Jx Jy. rewrite <- in_rev in Jx. eapply ids_kept_trans; [apply (IH1 y Jy) | now apply Z3].
  Qed.
End Ids2.

Lemma FOP_app {X} (R : X -> X -> Prop) l1 l2 x y : ForallOrdPairs R (l1 ++ l2) -> In x l1 -> In y l2 -> R x y.
Proof.
  induction l1 as [|z l1 IH]; cbn; intros F Jx Jy; [contradiction|]. inversion F as [|? ? F1 F2]; subst. destruct Jx as [<-|Jx]; [|now apply IH].
  rewrite Forall_forall in F1. apply F1. apply in_app_iff. now right.
Qed.

(** an active pool is registered under its own id, and at most one pool has a given id *)
Theorem C23_registered_under_own_id : forall (A : Arith), OrdLaws A -> ltb (zero (a := A)) min_stake_unit = true ->
  forall so g profiles stakes costs (s0 : sim A) w, set_order so -> init g profiles stakes costs = Ok s0 -> one_at_a_time g -> visible so s0 w ->
  NoDup (keys (w_pools w)) /\ (forall id p, active w id p -> p_id p = id) /\ (forall id id' p, active w id p -> active w id' p -> id = id').
Proof.
  intros A O MP so g profiles stakes costs s0 w SO H1 H2 V. assert (G := plain_visible O MP so SO _ _ _ _ _ _ H1 H2 V). split; [apply G|].
  assert (K : forall id p, active w id p -> p_id p = id) by (intros id p J; now destruct (good_active _ _ _ _ _ G id p J)). split; [exact K|].
  intros id id' p J J'. now rewrite <- (K id p J), <- (K id' p J').
Qed.
(** an id is used for one uninterrupted period, by one operator: ids of closed pools are never used again *)
Theorem C23_ids_never_reused : forall (A : Arith), OrdLaws A -> ltb (zero (a := A)) min_stake_unit = true ->
  forall so g profiles stakes costs (s0 s : sim A) l1 w3 l2 w2 l3 w1 l4, set_order so -> init g profiles stakes costs = Ok s0 -> one_at_a_time g ->
  history so s0 s (l1 ++ w3 :: l2 ++ w2 :: l3 ++ w1 :: l4) ->
  forall id p1 p3, active w1 id p1 -> active w3 id p3 -> p_owner p1 = p_owner p3 /\ exists p2, active w2 id p2 /\ p_owner p2 = p_owner p3.
Proof.
  intros A O MP so g profiles stakes costs s0 s l1 w3 l2 w2 l3 w1 l4 SO H1 H2 H id p1 p3 J1 J3.
  destruct (history_chain O MP so SO _ _ _ _ _ _ _ H1 H2 H) as [G C].
  set (ws := l1 ++ w3 :: l2 ++ w2 :: l3 ++ w1 :: l4) in *.
  assert (E1 : ws = (l1 ++ w3 :: l2 ++ w2 :: l3) ++ w1 :: l4) by (unfold ws; rewrite <- app_assoc; cbn; rewrite <- app_assoc; reflexivity).
  assert (E2 : ws = (l1 ++ w3 :: l2) ++ w2 :: l3 ++ w1 :: l4) by (unfold ws; rewrite <- app_assoc; reflexivity).
  assert (I1 : In w1 ws) by (rewrite E1; apply in_app_iff; right; now left).
  destruct (G w1 I1) as [G1 _]. assert (B := proj1 (proj2 (good_active _ _ _ _ _ G1 id p1 J1))).
  assert (K13 : ids_kept w1 w3). { unfold chain in C. rewrite E1 in C. eapply (FOP_app _ _ _ w3 w1 C); [apply in_app_iff; right; now left | now left]. }
  assert (K12 : ids_kept w1 w2). { unfold chain in C. rewrite E1 in C. eapply (FOP_app _ _ _ w2 w1 C); [apply in_app_iff; right; right; apply in_app_iff; right; now left | now left]. }
  assert (K23 : ids_kept w2 w3). { unfold chain in C. rewrite E2 in C. eapply (FOP_app _ _ _ w3 w2 C); [apply in_app_iff; right; now left | now left]. }
  destruct K12 as [L12 _]. split.
  - destruct K13 as [_ K13]. destruct (K13 id p3 J3) as [(p & J & E)|J]; [|lia]. destruct J as (r & Ja & Jb). destruct J1 as (r1 & Jc & Jd). congruence.
  - destruct K23 as [_ K23]. destruct (K23 id p3 J3) as [(p & J & E)|J]; [|lia]. eauto.
Qed.

(** * The hypotheses are met: in the run of Demo.v pool 1 is open from the first round on; in the third round agent 0 operates it and delegates to pool 3 *)
From Coq Require Import QArith Qcanon.
From Verif Require Import QcTac PropInit Demo.
Open Scope nat_scope.
Example C13_C15_C17_C23_instance : OrdLaws QcA /\ ltb (zero (a := QcA)) min_stake_unit = true /\ set_order so_id /\ one_at_a_time demo_seq /\
  exists s0 s w3 l2 w2 l3 w1 l4 p1 p2 p3 q, demo_init = Ok s0 /\ visible so_id s0 (s_w s) /\ history so_id s0 s ([] ++ w3 :: l2 ++ w2 :: l3 ++ w1 :: l4) /\
    active w1 1 p1 /\ active w2 1 p2 /\ active w3 1 p3 /\ w3 = s_w s /\ operates (s_w s) 0 1 p3 /\ active (s_w s) 3 q /\ w_pools (s_w s0) = [] /\
    allocates (s_w s) 0 3 (Q2Qc (1#5)) /\ records (s_w s) 3 0 (Q2Qc (1#5)).
Proof.
  split; [exact QcA_ord|]. split; [reflexivity|]. split; [exact so_id_set_order|]. split; [exact demo_one|].
  destruct (steps_check demo_init 1 (fun s1 => pool_is (s_w s1) 1 (fun _ => true) &&
    match steps 1 s1 with Ok s2 => pool_is (s_w s2) 1 (fun _ => true) &&
      match steps 1 s2 with Ok s3 => pool_is (s_w s3) 3 (fun p => match get (p_delegators p) 0 with Some x => Qc_eqb x (Q2Qc (1#5)) | None => false end) &&
          agent_is (s_w s3) 0 (fun _ st => match get (s_alloc st) 3 with Some x => Qc_eqb x (Q2Qc (1#5)) | None => false end && match get (s_owned st) 1, get (w_pools (s_w s3)) 1 with Some r, Some r' => Nat.eqb r r' && match get (w_heap (s_w s3)) r with Some _ => true | None => false end | _, _ => false end)
      | Err _ => false end | Err _ => false end)) as (s0 & s1 & H1 & H2 & H3).
  { vm_compute. reflexivity. }
  cbv beta in H3. apply andb_true_iff in H3 as [K1 H3]. destruct (steps 1 s1) as [s2|] eqn:E2; [|discriminate]. apply andb_true_iff in H3 as [K2 H3].
  destruct (steps 1 s2) as [s3|] eqn:E3; [|discriminate]. apply andb_true_iff in H3 as [K3 K4].
  assert (W0 : w_pools (s_w s0) = []).
  { assert (K : match demo_init with Ok s => Nat.eqb (length (w_pools (s_w s))) 0 | Err _ => false end = true) by (vm_compute; reflexivity). rewrite H1 in K. destruct (w_pools (s_w s0)); [reflexivity | discriminate K]. }
  assert (ST : forall s s' : sim QcA, steps 1 s = Ok s' -> sim_step so_id no_choice s = Ok s').
  { intros s s' H. cbn in H. destruct (sim_step so_id no_choice s) as [x|e]; [exact H | discriminate H]. }
  assert (R := steps_reach _ _ _ H2). apply ST in H2, E2, E3.
  assert (Hh := hist_step so_id _ _ _ _ _ (hist_step so_id _ _ _ _ _ (hist_step so_id _ _ _ _ _ (hist_start so_id s0) H2) E2) E3).
  apply pool_is_active in K1 as (p1 & A1 & _). apply pool_is_active in K2 as (p2 & A2 & _). apply pool_is_active in K3 as (q & A3 & Q). apply agent_is_plays in K4 as (ag & st & P & K4).
  apply andb_true_iff in K4 as [K4 K5]. destruct (get (s_alloc st) 3) as [x|] eqn:Ea; [|discriminate]. apply Qc_eqb_eq in K4 as ->.
  destruct (get (p_delegators q) 0) as [x|] eqn:Ed; [|discriminate]. apply Qc_eqb_eq in Q as ->.
  destruct (get (s_owned st) 1) as [r|] eqn:Eo; [|discriminate]. destruct (get (w_pools (s_w s3)) 1) as [r'|] eqn:Ep; [|discriminate]. apply andb_true_iff in K5 as [K5 K6]. apply Nat.eqb_eq in K5 as <-.
  destruct (get (w_heap (s_w s3)) r) as [p3|] eqn:Eh; [|discriminate].
  exists s0, s3, (s_w s3), (rev (round_states so_id no_choice s2)), (s_w s2), (rev (round_states so_id no_choice s1)), (s_w s1), (rev (round_states so_id no_choice s0) ++ [s_w s0]), p1, p2, p3, q.
  split; [exact H1|]. split; [apply vis_between; eapply reach_step; [eapply reach_step; [exact R | exact E2] | exact E3]|]. split; [exact Hh|]. split; [exact A1|]. split; [exact A2|].
  split; [exists r; split; assumption|]. split; [reflexivity|]. split; [exists ag, st, r; repeat split; try assumption; apply P|]. split; [exact A3|]. split; [exact W0|].
  split; [exists ag, st; split; assumption | exists q; split; assumption].
Qed.
