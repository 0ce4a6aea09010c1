(** What a pool holds under every activation order: every recorded delegation is of an agent other than the operator, and of no more than the stake of that agent. *)
From Coq Require Import ZArith List Bool Arith Lia Permutation QArith Qcanon.
From Verif Require Import Num Py QcTac Rewards SortedKeyList World Stakeholder Sched Sim Init Reach Spec ListFacts Greedy Inv SimInv PropState PropRewards AnyBooks PropBooks.
From Verif Require Import Num Py QcTac Rewards RewardFacts SortedKeyList World Stakeholder Sched Sim Init Reach Spec ListFacts Greedy Inv SimInv PropState PropRewards Reporters ReporterFacts PropMove AnyBooks PropBooks.
Open Scope nat_scope.

Section Shares.
  Variable so : list nat -> list nat -> list nat.
  Hypothesis SO : set_order so.
  Implicit Types w : world QcA. Implicit Types p q : pool QcA. Implicit Types st : strategy QcA. Implicit Types ag : agent QcA. Implicit Types s : sim QcA.
  Notation fullb := (AnyBooks.full anyK nonneg covered).
  (** the stakes of the agents *)
  Variable cap : nat -> option Qc.
  Definition within (a : nat) (v : Qc) : Prop := exists x, cap a = Some x /\ (v <= x)%Qc.
  (** no delegation of the operator, and none above the stake of the delegator *)
  Definition fair_pool p : Prop := (0 <= p_pledge p)%Qc /\ forall b (v : Qc), In (b, v) (p_delegators p) -> b <> p_owner p /\ within b v.
  (** [id] is the pool of somebody else *)
  Definition foreign w (a id : nat) : Prop := exists r p, get (w_heap w) r = Some p /\ p_id p = id /\ p_owner p <> a.
  Definition opt_foreign w a (o : option (strategy QcA)) : Prop := forall st id (v : Qc), o = Some st -> In (id, v) (s_alloc st) -> foreign w a id /\ within a v.
  Definition heap_fair w : Prop := forall r p, get (w_heap w) r = Some p -> fair_pool p.
  Definition agents_fair w : Prop := forall a ag, get (w_agents w) a = Some ag -> a_id ag = a /\ cap a = Some (a_stake ag) /\ opt_foreign w a (a_strategy ag) /\ opt_foreign w a (a_new ag).
  (** the threshold is positive whenever an operator can open a pool *)
  Definition fine_rss (rs : rss QcA) : Prop := (1 <= r_k rs)%Z -> (0 < r_thr rs)%Qc.
  Definition fair_world w : Prop := heap_fair w /\ agents_fair w /\ fine_rss (w_rss w).

  (** pool objects stay with their ids and operators *)
  Definition idk w w' : Prop := forall r p, get (w_heap w) r = Some p -> exists q, get (w_heap w') r = Some q /\ p_id q = p_id p /\ p_owner q = p_owner p.
  Lemma idk_eq w w' : w_heap w' = w_heap w -> idk w w'.  Proof. intros E r p G. exists p. rewrite E. auto. Qed.
  Lemma hk_idk w w' : hk w w' -> idk w w'.  Proof. intros H r p G. destruct (H r p G) as (q & G1 & (T1 & T2 & _)). exists q. auto. Qed.
  Lemma foreign_idk w w' a id : idk w w' -> foreign w a id -> foreign w' a id.
  Proof. intros H (r & p & G & E1 & E2). destruct (H r p G) as (q & Gq & F1 & F2). exists r, q. split; [exact Gq|]. split; congruence. Qed.
  Lemma optf_idk w w' a o : idk w w' -> opt_foreign w a o -> opt_foreign w' a o.
  Proof. intros H Ho st id v E J. destruct (Ho st id v E J) as [F1 F2]. split; [exact (foreign_idk _ _ _ _ H F1) | exact F2]. Qed.
  Lemma agents_idk w w' : idk w w' -> w_agents w' = w_agents w -> agents_fair w -> agents_fair w'.
  Proof. intros H E Ha a ag G. rewrite E in G. destruct (Ha a ag G) as (H1 & H2 & H3 & H4). split; [exact H1|]. split; [exact H2|]. split; eapply optf_idk; eassumption. Qed.

  (** single pools *)
  Lemma pop_set_in {V} (d : dict V) k v e : In e (pop (set d k v) k) -> In e d.
  Proof.
    induction d as [|[j x] d IH]; cbn; [rewrite Nat.eqb_refl; intros []|]. destruct (Nat.eqb_spec k j) as [->|N]; cbn; [rewrite Nat.eqb_refl; auto|].
    destruct (Nat.eqb_spec k j) as [->|_]; [congruence|]. cbn. intros [J|J]; auto.
  Qed.
  Lemma zero_small : ltb (a := QcA) zero min_stake_unit = true.
  Proof. vm_compute. reflexivity. Qed.
  Lemma fair_upd p (v : Qc) a : fair_pool p -> ltb (a := QcA) v min_stake_unit = true \/ a <> p_owner p /\ within a v -> fair_pool (update_delegation (A := QcA) v a p).
  Proof.
    intros [Hq Hp] Hv. split; [exact Hq|]. intros b x J. unfold update_delegation in J |- *. cbn [p_delegators p_owner] in *. destruct (ltb (a := QcA) v min_stake_unit) eqn:E.
    - apply pop_set_in in J. now apply Hp.
    - destruct Hv as [Hv|Hv]; [congruence|]. apply AnyBooks.In_set in J as [[-> ->]|J]; [exact Hv | now apply Hp].
  Qed.
  Lemma fair_adjust w ag (pledge : Qc) cost margins i p p' : (0 <= pledge)%Qc -> fair_pool p -> adjust_pool (A := QcA) w ag pledge cost margins i p = Ok p' -> fair_pool p'.
  Proof.
    intros Pp Hp H. unfold adjust_pool in H. apply bind_ok in H as (p2 & Hq & H). apply bind_ok in H as (m & _ & H). unfold pool_set_profit in Hq. apply bind_ok in Hq as (pp & _ & Hq). injection Hq as <-. injection H as <-. split; [exact Pp | exact (proj2 Hp)].
  Qed.
  Lemma fair_draft w ag (pledge : Qc) cost margins i id p : (0 <= pledge)%Qc -> draft_pool (A := QcA) w ag pledge cost margins i id = Ok p -> fair_pool p.
  Proof.
    intros Pp H. unfold draft_pool in H. apply bind_ok in H as (p2 & Hp & H). apply bind_ok in H as (m & _ & H). unfold new_pool in Hp. apply bind_ok in Hp as (pp & _ & Hp). injection Hp as <-. injection H as <-. split; [exact Pp | intros b v []].
  Qed.
  Lemma heap_frame w w' : frame w w' -> heap_fair w -> heap_fair w'.
  Proof. intros (E & _) H r p. rewrite E. apply H. Qed.
  Lemma heap_store w r p : heap_fair w -> fair_pool p -> heap_fair (store w r p).
  Proof. intros H Hp r' p'. cbn. rewrite get_set. destruct (Nat.eqb r r'); [intros [= <-]; exact Hp | apply H]. Qed.
  Lemma heap_alloc w p : heap_fair w -> fair_pool p -> heap_fair (fst (alloc w p)).
  Proof. intros H Hp r' p'. cbn. rewrite get_set. destruct (Nat.eqb (w_next w) r'); [intros [= <-]; exact Hp | apply H]. Qed.

  (** delegating: the pool registered under a foreign id *)
  Definition regid w : Prop := forall id r, get (w_pools w) id = Some r -> exists p, get (w_heap w) r = Some p /\ p_id p = id.
  Lemma full_regid w : fullb w -> regid w.
  Proof.
    intros [[Hp Ha] [N R]] id r G. apply R in G as (a & ag & st & G1 & G2 & G3). destruct (Ha a ag G1) as (_ & _ & Ho & _). destruct (Ho st G2) as (_ & _ & ps & F & _).
    destruct (mine_get _ _ _ _ _ _ F G3) as (p & K1 & K2 & _). eauto.
  Qed.
  Lemma touch_fair w0 uid w id (v : Qc) w' : regid w0 -> ev w0 w -> heap_fair w -> ltb (a := QcA) v min_stake_unit = true \/ foreign w0 uid id /\ within uid v ->
    touch_delegation (A := QcA) uid w id v = Ok w' -> heap_fair w' /\ ev w0 w'.
  Proof.
    intros R E Hw Hv H. split; [|exact (touch_ev _ _ _ _ _ _ E H)]. unfold touch_delegation in H. apply bind_ok in H as (r & Hr & H). apply bind_ok in H as (w1 & H1 & H). apply bind_ok in H as (p & H2 & H).
    apply of_option_ok in Hr, H2. apply rankm_remove_frame in H1. apply rankm_add_frame in H. eapply heap_frame; [exact H|]. assert (Hw1 := heap_frame _ _ H1 Hw). apply heap_store; [exact Hw1|].
    apply fair_upd; [exact (Hw1 r p H2)|]. destruct Hv as [Hv|[Hf Hc]]; [now left|]. right. split; [|exact Hc]. assert (E1 := ev_frame _ _ _ E H1). rewrite (ev_pools _ _ E) in Hr. destruct (R id r Hr) as (p0 & G0 & I0).
    destruct (ev_hk _ _ E1 r p0 G0) as (p' & Gp & (T1 & _)). rewrite H2 in Gp. injection Gp as <-. destruct (foreign_idk _ _ _ _ (hk_idk _ _ (ev_hk _ _ E1)) Hf) as (r' & q & Gq & Iq & Oq).
    assert (X := proj2 (ev_hp _ _ E1) r r' p q H2 Gq ltac:(congruence)). congruence.
  Qed.
  Lemma touches_fair {Y} w0 uid (f : Y -> nat) (h : Y -> Qc) l : regid w0 -> (forall y, In y l -> ltb (a := QcA) (h y) min_stake_unit = true \/ foreign w0 uid (f y) /\ within uid (h y)) ->
    forall w w', ev w0 w -> heap_fair w -> foldM (fun w y => touch_delegation (A := QcA) uid w (f y) (h y)) l w = Ok w' -> heap_fair w' /\ ev w0 w'.
  Proof.
    intros R Hl w w' E Hw. apply (foldM_inv _ (fun x => heap_fair x /\ ev w0 x)); [now split|]. intros x y x' J [Hx Ex] H. exact (touch_fair _ _ _ _ _ _ R Ex Hx (Hl y J) H).
  Qed.

  (** the pools chosen by the greedy allocation are eligible ones *)
  Lemma greedy_in (rs : rss QcA) el : forall (x : Qc) (d : dict Qc) b d' (x' : Qc) b', greedy (A := QcA) rs el x d b = (d', x', b') ->
    (forall id (v : Qc), In (id, v) d' -> (exists y : Qc, In (id, y) d) \/ In id (map (@p_id QcA) el)) /\ (forall id, b' = Some id -> b = Some id \/ In id (map (@p_id QcA) el)).
  Proof.
    induction el as [|p el IH]; intros x d b d' x' b' H; cbn [greedy] in H; [injection H as <- <- <-; split; [intros id v J; left; now exists v | auto]|]. cbn [map].
    destruct (ltb (a := QcA) (sub (pool_threshold rs (p_pledge p)) (p_stake p)) min_stake_unit).
    - destruct (IH _ _ _ _ _ _ H) as [I1 I2]. split; [intros id v J; destruct (I1 id v J) as [K|K]; [now left | right; now right]|].
      intros id J. destruct (I2 id J) as [K|K]; [|right; now right]. destruct b; [now left | injection K as <-; right; now left].
    - destruct (ltb (a := QcA) _ min_stake_unit).
      + injection H as <- _ <-. split; [|auto]. intros id v J. apply AnyBooks.In_set in J as [[-> _]|J]; [right; now left | left; now exists v].
      + destruct (IH _ _ _ _ _ _ H) as [I1 I2]. split; [|intros id J; destruct (I2 id J) as [K|K]; [now left | right; now right]].
        intros id v J. destruct (I1 id v J) as [[y K]|K]; [|right; now right]. apply AnyBooks.In_set in K as [[-> _]|K]; [right; now left | left; now exists y].
  Qed.
  Lemma greedy_alloc_in (rs : rss QcA) el (x : Qc) id (v : Qc) : In (id, v) (greedy_allocations (A := QcA) rs el x) -> In id (map (@p_id QcA) el).
  Proof.
    unfold greedy_allocations. destruct (greedy (A := QcA) rs el x nil None) as [[d r] b] eqn:E. destruct (greedy_in _ _ _ _ _ _ _ _ E) as [I1 I2]. assert (K : forall v0 : Qc, In (id, v0) d -> In id (map (@p_id QcA) el)).
    { intros v0 J. destruct (I1 id v0 J) as [[y []]|J']; exact J'. }
    destruct b as [i|]; [|apply K]. destruct (leb (a := QcA) min_stake_unit r); [|apply K]. intros J. apply AnyBooks.In_set in J as [[-> _]|J]; [|now apply (K v)]. destruct (I2 i eq_refl) as [C|J']; [discriminate C | exact J'].
  Qed.


  Lemma total_ge (d : dict Qc) id (v : Qc) : (forall k (x : Qc), In (k, x) d -> 0 <= x)%Qc -> In (id, v) d -> (v <= total d)%Qc.
  Proof.
    intros P. assert (N : forall l : dict Qc, (forall k (x : Qc), In (k, x) l -> 0 <= x)%Qc -> (0 <= total l)%Qc).
    { clear. unfold total, values. intros l. induction l as [|[k x] l IH]; intros P; [apply Qcle_refl|]. cbn [map snd]. rewrite Qc_sum_cons. assert (0 <= x)%Qc by (apply (P k); now left). assert (0 <= Qc_sum (map snd l))%Qc by (apply IH; intros k' y J; apply (P k'); now right). qlra. }
    induction d as [|[k x] d IH]; [intros []|]. assert (Px : (0 <= x)%Qc) by (apply (P k); now left). assert (Pd : forall k (x : Qc), In (k, x) d -> (0 <= x)%Qc) by (intros k' y J; apply (P k'); now right).
    assert (X := N d Pd). unfold total, values in *. cbn [map snd]. rewrite Qc_sum_cons. intros [J|J].
    - injection J as <- <-. qlra.
    - assert (v <= Qc_sum (map snd d))%Qc by (now apply IH). qlra.
  Qed.

  (** * evaluating moves *)
  Lemma delegation_fair w0 w ag (x : Qc) w' st : regid w0 -> cap (a_id ag) = Some (a_stake ag) -> opt_foreign w0 (a_id ag) (a_strategy ag) -> ev w0 w -> heap_fair w -> (x <= a_stake ag)%Qc ->
    find_delegation_move (A := QcA) w ag x = Ok (w', st) -> heap_fair w' /\ ev w0 w' /\ opt_foreign w' (a_id ag) (Some st).
  Proof.
    intros R Hc Ho E Hw Hx H. unfold find_delegation_move in H. destruct (ltb (a := QcA) x min_stake_unit) eqn:L; [injection H as <- <-; split; [exact Hw|]; split; [exact E|]; intros st id v [= <-] []|].
    apply ltb_MIN_false in L. apply bind_ok in H as ([w1 d] & H1 & H). injection H as <- <-. unfold stake_allocations in H1. apply bind_ok in H1 as (rk & _ & H1). apply bind_ok in H1 as (el & Hel & H1).
    destruct el as [|e el]; [injection H1 as <- <-; split; [exact Hw|]; split; [exact E|]; intros st id v [= <-] []|].
    apply bind_ok in H1 as (st & Hst & H1). apply bind_ok in H1 as (w2 & H2 & H1). apply bind_ok in H1 as (pools & Hp & H1). apply bind_ok in H1 as (w3 & H3 & H1). injection H1 as <- <-. apply of_option_ok in Hst.
    destruct (touches_fair w0 (a_id ag) fst (fun _ => 0%Qc) (s_alloc st) R (fun y _ => or_introl zero_small) w w2 E Hw H2) as [Hw2 E2].
    assert (Hy : forall y, In y (s_alloc st) -> ltb (a := QcA) (snd y) min_stake_unit = true \/ foreign w0 (a_id ag) (fst y) /\ within (a_id ag) (snd y)) by (intros [id v] J; right; exact (Ho st id v Hst J)).
    destruct (touches_fair w0 (a_id ag) fst snd (s_alloc st) R Hy w2 w3 E2 Hw2 H3) as [Hw3 E3]. split; [exact Hw3|]. split; [exact E3|].
    assert (E23 : ev w2 w3). { eapply touches_ev; [|exact (ev_refl _ (ev_hp _ _ E2)) | exact H3]. intros y z y' J. cbn beta in J. eauto. }
    intros st' id v [= <-] J. cbn [s_alloc] in J. split.
    - apply greedy_alloc_in in J. apply (foreign_idk w2); [exact (hk_idk _ _ (ev_hk _ _ E23))|]. apply in_map_iff in J as (p & Ep & J). apply mapM_ok in Hp. set (els := e :: el) in *. clearbody els.
      assert (K : exists e0, In e0 els /\ (match e0 with None => Err AttributeError | Some r => deref w2 r end) = Ok p). { clear - Hp J. induction Hp as [|z q l ps Hz Hp IH]; [destruct J|]. destruct J as [->|J]; [exists z; split; [now left | exact Hz] | destruct (IH J) as (e0 & J1 & J2); exists e0; split; [now right | exact J2]]. }
      destruct K as (e0 & J1 & J2). destruct e0 as [r|]; [|discriminate J2]. apply of_option_ok in J2. apply (filterM_sub _ _ _ Hel) in J1 as [_ J1]. cbn beta iota in J1. apply bind_ok in J1 as (p0 & Hp0 & J1). apply of_option_ok in Hp0.
      apply Ok_inj in J1. apply andb_true_iff in J1 as [J1 _]. apply negb_true_iff, Nat.eqb_neq in J1. exists r, p. split; [exact J2|]. split; [exact Ep|].
      assert (E12 : ev w w2). { eapply touches_ev; [|exact (ev_refl _ (ev_hp _ _ E)) | exact H2]. intros y z y' Jt. cbn beta in Jt. eauto. }
      destruct (ev_hk _ _ E12 r p0 Hp0) as (p1 & G1 & (_ & T2 & _)). rewrite J2 in G1. injection G1 as <-. congruence.
    - destruct (greedy_alloc_covered (w_rss w2) pools x L) as [P T]. exists (a_stake ag). split; [exact Hc|]. eapply Qcle_trans; [exact (total_ge _ _ _ P J)|]. eapply Qcle_trans; [exact T | exact Hx].
  Qed.
  Lemma copy_fair l : forall w (d : dict nat) w' d', heap_fair w -> foldM (fun acc e => let '(w, d) := acc in let '(id, r) := e in let! wr := deepcopy (A := QcA) w r in let '(w', r') := wr in Ok (w', set d id r')) l (w, d) = Ok (w', d') -> heap_fair w'.
  Proof.
    induction l as [|[id r] l IH]; intros w d w' d' G H; cbn -[deepcopy] in H; [now injection H as <- <-|].
    apply bind_ok in H as ((w1, d1) & H1 & H). apply bind_ok in H1 as ((w2, r2) & H2 & H1). injection H1 as <- <-. apply IH in H; [exact H|].
    unfold deepcopy in H2. apply bind_ok in H2 as (p & Hp & H2). injection H2 as <- <-. apply of_option_ok in Hp. exact (heap_alloc w p G (G _ _ Hp)).
  Qed.
  Lemma keep_fair w ag n w' d : heap_fair w -> pools_to_keep (A := QcA) so w ag n = Ok (w', d) -> heap_fair w'.
  Proof.
    intros G H. unfold pools_to_keep in H. apply bind_ok in H as (st & _ & H). destruct (Z.ltb _ _).
    - apply bind_ok in H as (props & _ & H). apply bind_ok in H as (todo & _ & H). exact (copy_fair _ _ _ _ _ G H).
    - exact (copy_fair _ _ _ _ _ G H).
  Qed.
  Lemma operator_fair w0 w ag n d margins w' st : regid w0 -> hp w0 -> cap (a_id ag) = Some (a_stake ag) -> (0 <= a_stake ag)%Qc -> opt_foreign w0 (a_id ag) (a_strategy ag) -> (1 <= n)%Z -> (0 < r_thr (w_rss w))%Qc ->
    ev w0 w -> heap_fair w -> fresh_own w0 w (a_id ag) d -> find_operator_move (A := QcA) w ag n d margins = Ok (w', st) -> heap_fair w' /\ ev w0 w' /\ opt_foreign w' (a_id ag) (Some st).
  Proof.
    intros R H0 Hc Hs Ho Hn Ht E Hw Fo H. unfold find_operator_move in H. apply bind_ok in H as (pledge & Hpl & H). apply bind_ok in H as (cost & _ & H).
    apply bind_ok in H as ([w1 i1] & H1 & H). apply bind_ok in H as ([w2 o2] & H2 & H). apply bind_ok in H as ([w3 d3] & H3 & H). injection H as <- <-. cbn [fst] in H2.
    destruct (adjust_loop w0 ag pledge cost margins H0 d nil w 0 w1 i1 E Fo ltac:(intros ? ? []) H1) as (E1 & F1 & P1). cbn [app] in *.
    destruct (draft_loop w0 ag pledge cost margins _ w1 d w2 o2 E1 F1 P1 H2) as (E2 & F2 & _).
    assert (Pp : (0 <= pledge)%Qc).
    { unfold agent_pledge_per_pool, pledge_per_pool in Hpl. destruct (Z.leb_spec n 0); [lia|]. apply bind_ok in Hpl as (q & Hq & Hpl). apply Ok_inj in Hpl. rewrite pdiv_ok in Hq by (apply Qc_pos_neq, Qc_ofZ_pos; lia). apply Ok_inj in Hq.
      rewrite pmin_min in Hpl. rewrite <- Hpl, <- Hq. apply Qcmin_glb; [|now apply Qclt_le_weak]. apply Qcdiv_ge; [apply Qc_ofZ_pos; lia|]. now rewrite Qcmult_0_l. }
    assert (G1 : heap_fair w1).
    { refine (foldM_inv _ (fun x => heap_fair (fst x)) d (w, 0) (w1, i1) Hw _ H1). intros [x i] e y _ Ge J. cbn [fst] in *. apply bind_ok in J as (p & J1 & J). apply bind_ok in J as (p' & J2 & J). injection J as <-. cbn [fst].
      apply heap_store; [exact Ge|]. refine (fair_adjust _ _ _ _ _ _ _ _ Pp _ J2). apply of_option_ok in J1. exact (Ge _ _ J1). }
    assert (G2 : heap_fair w2).
    { refine (foldM_inv _ (fun x => heap_fair (fst x)) _ (w1, d) (w2, o2) G1 _ H2). intros [x d'] i y _ Ge J. cbn [fst] in *. apply bind_ok in J as (p & J1 & J). injection J as <-. cbn [fst].
      apply (heap_alloc (with_idseq (S (w_idseq x)) x) p); [exact Ge | exact (fair_draft _ _ _ _ _ _ _ _ Pp J1)]. }
    unfold find_delegation_for_operator in H3. destruct (ltb (a := QcA) zero _); [|injection H3 as <- <-; split; [exact G2|]; split; [exact E2|]; intros st id v [= <-] []].
    apply bind_ok in H3 as ([w4 s4] & H4 & H3). injection H3 as <- <-. edestruct (delegation_fair w0 w2 ag (sub (a := QcA) (a_stake ag) (mul (a := QcA) pledge (ofZ n))) w4 s4 R Hc Ho E2 G2) with (2 := H4) as (K1 & K2 & K3).
    - assert (0 < Qc_ofZ n)%Qc by (apply Qc_ofZ_pos; lia). change (a_stake ag - pledge * Qc_ofZ n <= a_stake ag)%Qc. assert (0 <= pledge * Qc_ofZ n)%Qc by (apply Qcmult_nonneg; [assumption | now apply Qclt_le_weak]). qlra.
    - split; [exact K1|]. split; [exact K2|]. intros st id v [= <-] J. exact (K3 s4 id v eq_refl J).
  Qed.
  Lemma choose_fair w0 w ag w' u o : regid w0 -> hp w0 -> cap (a_id ag) = Some (a_stake ag) -> nonneg (a_stake ag) -> opt_foreign w0 (a_id ag) (a_strategy ag) -> opt_ok anyK covered w0 (a_id ag) (a_stake ag) (a_strategy ag) -> fine_rss (w_rss w0) ->
    ev w0 w -> heap_fair w -> choose_pool_strategy (A := QcA) so w ag = Ok (w', u, o) -> heap_fair w' /\ opt_foreign w' (a_id ag) o.
  Proof.
    intros R H0 Hc Hs Ho Hk Hr E Hw H. unfold choose_pool_strategy in H. apply bind_ok in H as ([t margins] & Ht & H). destruct (Z.ltb_spec 0 t) as [Lt|]; [|injection H as <- _ <-; split; [exact Hw|]; intros st id v C; discriminate C].
    apply bind_ok in H as ([w1 d1] & H1 & H). apply bind_ok in H as ([w2 st] & H2 & H). apply bind_ok in H as (x & _ & H). injection H as <- _ <-.
    destruct (pools_to_keep_ev so SO anyK covered w0 w ag t w1 d1 _ E Hk H1) as (E1 & F1 & _). rewrite (ev_rss _ _ E) in Ht.
    assert (Lk : (1 <= r_k (w_rss w0))%Z).
    { destruct (Z.le_gt_cases 1 (r_k (w_rss w0))) as [L|L]; [exact L|].
      exfalso. revert Ht. generalize (search_fuel (r_k (w_rss w0))). intros [|fuel] Ht; [discriminate Ht|]. cbn -[Z.div Z.add Z.sub Z.ltb] in Ht.
      assert (B : ((1 + r_k (w_rss w0)) / 2 <= 0)%Z) by (apply Z.lt_succ_r, Z.div_lt_upper_bound; lia).
      assert (B' : (r_k (w_rss w0) <= (1 + r_k (w_rss w0)) / 2)%Z) by (apply Z.div_le_lower_bound; lia).
      apply bind_ok in Ht as (xu & _ & Ht). destruct (Z.ltb_spec 1 ((1 + r_k (w_rss w0)) / 2)) as [|_]; [lia|].
      destruct (Z.ltb_spec ((1 + r_k (w_rss w0)) / 2) (r_k (w_rss w0))) as [M|_]; [lia|]. injection Ht as Et _. rewrite <- Et in Lt. exact (Zlt_not_le _ _ Lt B). }
    destruct (operator_fair w0 w1 ag t d1 margins w2 st R H0 Hc Hs Ho) with (6 := H2) as (K1 & K2 & K3); [lia | rewrite (ev_rss _ _ E1); exact (Hr Lk) | exact E1 | exact (keep_fair _ _ _ _ _ Hw H1) | exact F1 | split; [exact K1 | exact K3]].
  Qed.

  (** * whole worlds *)
  Lemma fair_frame w w' : frame w w' -> fair_world w -> fair_world w'.
  Proof. intros F (H1 & H2 & H3). assert (F' := F). destruct F' as (E1 & E2 & _ & E4 & _). split; [exact (heap_frame _ _ F H1)|]. split; [exact (agents_idk _ _ (idk_eq _ _ E1) E2 H2) | now rewrite E4]. Qed.
  Lemma fair_same w w' : w_heap w' = w_heap w -> w_agents w' = w_agents w -> w_rss w' = w_rss w -> fair_world w -> fair_world w'.
  Proof. intros E1 E2 E4 (H1 & H2 & H3). split; [intros r p; rewrite E1; apply H1|]. split; [exact (agents_idk _ _ (idk_eq _ _ E1) E2 H2) | now rewrite E4]. Qed.
  Lemma fair_store w r p q : fair_world w -> get (w_heap w) r = Some p -> p_id q = p_id p -> p_owner q = p_owner p -> fair_pool q -> fair_world (store w r q).
  Proof.
    intros (H1 & H2 & H3) G E1 E2 Hq. split; [now apply heap_store|]. split; [|exact H3]. apply (agents_idk w); [|reflexivity | exact H2]. intros r' p' G'. cbn. rewrite get_set. destruct (Nat.eqb_spec r r') as [<-|]; [|eauto]. exists q. split; [reflexivity|]. split; congruence.
  Qed.
  Lemma fair_put w a ag : fair_world w -> a_id ag = a -> cap a = Some (a_stake ag) -> opt_foreign w a (a_strategy ag) -> opt_foreign w a (a_new ag) -> fair_world (put_agent w a ag).
  Proof.
    intros (H1 & H2 & H3) K1 K2 K3 K4. split; [exact H1|]. split; [|exact H3]. intros b bg J. cbn in J. rewrite get_set in J. destruct (Nat.eqb_spec a b) as [<-|]; [injection J as <-; auto | exact (H2 b bg J)].
  Qed.
  Lemma update_fair w uid w' : fullb w -> fair_world w -> update_strategy (A := QcA) so w uid = Ok w' -> fair_world w'.
  Proof.
    intros Fu (Hh & Ha & Hr) H. assert (R := full_regid w Fu). destruct Fu as [[H1 H2] _]. unfold update_strategy in H. apply bind_ok in H as (ag & Hag & H). apply the_agent_get in Hag. destruct (H2 _ _ Hag) as (I1 & I2 & I3 & _). destruct (Ha _ _ Hag) as (J1 & J2 & J3 & J4).
    assert (Q : w' = w \/ exists cu eu w1 del du w2 ou op, find_delegation_move (A := QcA) w ag (a_stake ag) = Ok (w1, del) /\ choose_pool_strategy (A := QcA) so w1 ag = Ok (w2, ou, op) /\
                w' = put_agent w2 uid (agent_set_new (pick_move (A := QcA) (augmented_utility w cu eu) (du, del) (ou, op)) ag)).
    { destruct (a_profile ag) eqn:Ep; [right|right|left; now injection H as <-];
        (apply bind_ok in H as (st & _ & H); apply bind_ok in H as (cu & _ & H); apply bind_ok in H as (eu & _ & H); apply bind_ok in H as ((w1, del) & H3 & H);
         apply bind_ok in H as (du & _ & H); apply bind_ok in H as (((w2, ou), op) & H4 & H); injection H as <-; exists cu, eu, w1, del, du, w2, ou, op; auto). }
    destruct Q as [->|(cu & eu & w1 & del & du & w2 & ou & op & H3 & H4 & ->)]; [split; [exact Hh | now split]|].
    rewrite <- I1 in I3, J2, J3.
    destruct (delegation_fair w w ag _ w1 del R J2 J3 (ev_refl _ H1) Hh (Qcle_refl _) H3) as (Hw1 & E1 & D1).
    destruct (choose_fair w w1 ag w2 ou op R H1 J2 I2 J3 I3 Hr E1 Hw1 H4) as (Hw2 & D2).
    destruct (choose_ev so SO anyK nonneg covered covered_op w w1 ag w2 ou op H1 I2 ltac:(now intros) E1 I3 H4) as (E2 & _).
    destruct (choose_ev so SO anyK nonneg covered covered_op w1 w1 ag w2 ou op (ev_hp _ _ E1) I2 ltac:(now intros) (ev_refl _ (ev_hp _ _ E1)) (opt_hk anyK covered w w1 _ _ _ (ev_hk _ _ E1) I3) H4) as (E12 & _). rewrite I1 in *.
    assert (Sub : forall st, pick_move (A := QcA) (augmented_utility w cu eu) (du, del) (ou, op) = Some st -> st = del \/ op = Some st).
    { intros st Est. unfold pick_move in Est. cbn [fst snd] in Est. destruct op as [s|].
      - match type of Est with (if ?b then _ else _) = _ => destruct b end; [now right|]. destruct (ltb _ du); cbn in Est; [left; congruence | discriminate Est].
      - destruct (ltb _ du); cbn in Est; [left; congruence | discriminate Est]. }
    apply fair_put; cbn [agent_set_new a_id a_stake a_strategy a_new].
    - split; [exact Hw2|]. split; [exact (agents_idk _ _ (hk_idk _ _ (ev_hk _ _ E2)) (ev_agents _ _ E2) Ha) | now rewrite (ev_rss _ _ E2)].
    - exact I1.
    - exact J2.
    - exact (optf_idk _ _ _ _ (hk_idk _ _ (ev_hk _ _ E2)) J3).
    - intros st id v Est J. destruct (Sub st Est) as [->|Eo]; [|exact (D2 st id v Eo J)]. exact (optf_idk _ _ _ _ (hk_idk _ _ (ev_hk _ _ E12)) D1 del id v eq_refl J).
  Qed.

  (** * making the move *)
  Lemma optf_pop w a o st k (ow : dict nat) : opt_foreign w a o -> o = Some st -> opt_foreign w a (Some (mkStrategy (pop (s_alloc st) k) ow)).
  Proof. intros Ho E st' id v [= <-] J. cbn in J. apply In_pop in J. exact (Ho st id v E J). Qed.
  Lemma remove_one_fair r id w a w' : fair_world w -> remove_one_delegation (A := QcA) r id w a = Ok w' -> fair_world w'.
  Proof.
    intros G H. unfold remove_one_delegation in H. apply bind_ok in H as (ag & Hag & H). apply bind_ok in H as (st & Hst & H). apply bind_ok in H as (x & _ & H). apply bind_ok in H as (p & Hp & H). injection H as <-.
    apply the_agent_get in Hag. apply of_option_ok in Hst, Hp. destruct (proj1 (proj2 G) _ _ Hag) as (J1 & J2 & J3 & J4).
    apply (fair_store _ _ p); [|exact Hp | reflexivity | reflexivity | apply fair_upd; [exact (proj1 G _ _ Hp) | left; exact zero_small]].
    apply fair_put; cbn [agent_set_strategy a_id a_stake a_strategy a_new]; try assumption. exact (optf_pop _ _ _ _ _ _ J3 Hst).
  Qed.
  Lemma remove_fair w r w' : fair_world w -> remove_delegations (A := QcA) w r = Ok w' -> fair_world w'.
  Proof.
    intros G H. unfold remove_delegations in H. apply bind_ok in H as (p & _ & H). apply bind_ok in H as (w1 & H1 & H). injection H as <-.
    assert (G1 : fair_world w1). { refine (foldM_inv _ fair_world _ w w1 G _ H1). intros x a y _ Gx J. exact (remove_one_fair _ _ _ _ _ Gx J). }
    destruct (w_simul w1); [|exact G1]. destruct G1 as (K1 & K2 & K3). split; [exact K1|]. split; [|exact K3]. intros a ag J. cbn in J. rewrite (get_map_snd (drop_from_new (p_id p))) in J. destruct (get (w_agents w1) a) as [ag0|] eqn:E; [|discriminate J]. injection J as <-.
    destruct (K2 _ _ E) as (Q1 & Q2 & Q3 & Q4). unfold drop_from_new. destruct (a_new ag0) as [st|] eqn:Ew; [|rewrite <- Ew in Q4; auto]. cbn [agent_set_new a_id a_stake a_strategy a_new]. split; [exact Q1|]. split; [exact Q2|]. split; [exact Q3|]. exact (optf_pop _ _ _ _ _ _ Q4 eq_refl).
  Qed.
  Lemma close_fair w id w' : fair_world w -> close_pool (A := QcA) w id = Ok w' -> fair_world w'.
  Proof.
    intros G H. unfold close_pool in H. apply bind_ok in H as (r & _ & H). apply bind_ok in H as (w1 & H1 & H). apply bind_ok in H as (w2 & H2 & H). apply bind_ok in H as (w3 & H3 & H). injection H as <-.
    apply (fair_frame _ _ (rank_remove_frame _ _ _ H1)) in G. apply (fair_frame _ _ (rankm_remove_frame _ _ _ H2)) in G. apply (fair_same w3); [reflexivity..|]. exact (remove_fair _ _ _ G H3).
  Qed.
  Lemma update_pool_fair uid w id w' : fair_world w -> update_pool (A := QcA) uid w id = Ok w' -> fair_world w'.
  Proof.
    intros G H. unfold update_pool in H. apply bind_ok in H as (ag & _ & H). apply bind_ok in H as (new & _ & H). apply bind_ok in H as (r & _ & H). apply bind_ok in H as (p & _ & H).
    apply bind_ok in H as (w1 & H1 & H). assert (G1 : fair_world w1). { destruct (p_private p && _)%bool; [exact (remove_fair _ _ _ G H1) | now injection H1 as <-]. }
    apply bind_ok in H as (ag2 & _ & H). apply bind_ok in H as (st & _ & H). apply bind_ok in H as (old & _ & H). apply bind_ok in H as (w3 & H3 & H). apply bind_ok in H as (w4 & H4 & H).
    apply bind_ok in H as (w5 & H5 & H). apply bind_ok in H as (w6 & H6 & H). injection H as <-.
    assert (G2 : fair_world (with_pools (set (w_pools w1) id r) w1)) by (apply (fair_same w1); [reflexivity.. | exact G1]).
    apply (fair_frame _ _ (rank_remove_frame _ _ _ H3)) in G2. apply (fair_frame _ _ (rank_add_frame _ _ _ H4)) in G2. apply (fair_frame _ _ (rankm_remove_frame _ _ _ H5)) in G2. apply (fair_frame _ _ (rankm_add_frame _ _ _ H6)) in G2.
    apply (fair_same w6); [reflexivity.. | exact G2].
  Qed.
  Lemma open_fair uid w id w' : fair_world w -> open_pool (A := QcA) uid w id = Ok w' -> fair_world w'.
  Proof.
    intros G H. unfold open_pool in H. apply bind_ok in H as (ag & _ & H). apply bind_ok in H as (st & _ & H). apply bind_ok in H as (r & _ & H). apply bind_ok in H as (w2 & H2 & H).
    apply (fair_frame _ _ (rankm_add_frame _ _ _ H)). apply (fair_frame _ _ (rank_add_frame _ _ _ H2)). apply (fair_same w); [reflexivity.. | exact G].
  Qed.
  Lemma execute_fair w uid w' : fullb w -> fair_world w -> execute_strategy (A := QcA) so w uid = Ok w' -> fair_world w'.
  Proof.
    intros Fu G H. assert (R := full_regid w Fu). destruct Fu as [[Hp _] _]. unfold execute_strategy in H. apply bind_ok in H as (ag & Hag & H). apply bind_ok in H as (old & _ & H). apply bind_ok in H as (new & Hn & H).
    apply bind_ok in H as (w1 & H1 & H). apply bind_ok in H as (w2 & H2 & H). apply bind_ok in H as (w3 & H3 & H). apply bind_ok in H as (w4 & H4 & H). apply bind_ok in H as (ag4 & Hag4 & H).
    apply the_agent_get in Hag, Hag4. apply of_option_ok in Hn. destruct G as (Gh & Ga & Gr). destruct (Ga _ _ Hag) as (_ & _ & _ & Jn).
    destruct (touches_fair w uid (fun id => id) (fun _ => 0%Qc) _ R (fun y _ => or_introl zero_small) w w1 (ev_refl _ Hp) Gh H1) as [G1 E1].
    destruct (touches_fair w uid fst snd (s_alloc new) R) with (4 := H2) as [G2 E2]; [intros [id v] J; right; exact (Jn new id v Hn J) | exact E1 | exact G1|].
    assert (F2 : fair_world w2) by (split; [exact G2|]; split; [exact (agents_idk _ _ (hk_idk _ _ (ev_hk _ _ E2)) (ev_agents _ _ E2) Ga) | now rewrite (ev_rss _ _ E2)]).
    assert (F3 : fair_world w3) by (refine (foldM_inv _ fair_world _ w2 w3 F2 _ H3); intros x a y _ Gx J; exact (close_fair _ _ _ Gx J)).
    assert (F4 : fair_world w4) by (refine (foldM_inv _ fair_world _ w3 w4 F3 _ H4); intros x a y _ Gx J; exact (update_pool_fair _ _ _ _ Gx J)).
    destruct (proj1 (proj2 F4) _ _ Hag4) as (K1 & K2 & K3 & K4).
    refine (foldM_inv _ fair_world _ _ w' _ _ H); [|intros x a y _ Gx J; exact (open_fair _ _ _ _ Gx J)]. apply fair_put; cbn [agent_set_new agent_set_strategy a_id a_stake a_strategy a_new]; try assumption. intros st id v C; discriminate C.
  Qed.
  Lemma advance_fair w uid w' : fullb w -> fair_world w -> advance (A := QcA) so w uid = Ok w' -> fair_world w'.
  Proof.
    intros Fu G H. unfold advance in H. apply bind_ok in H as (ag & _ & H). destruct (a_new ag); [|now injection H as <-]. apply bind_ok in H as (w1 & H1 & H). injection H as <-. apply (fair_same w1); [reflexivity..|]. exact (execute_fair _ _ _ Fu G H1).
  Qed.
  Lemma event_fair w e w' : fullb w -> fair_world w -> do_event (A := QcA) so w e = Ok w' -> fair_world w'.
  Proof.
    intros Fu G H. destruct e as [a|a]; cbn in H; [|exact (advance_fair _ _ _ Fu G H)]. unfold agent_step in H. apply bind_ok in H as (w1 & H1 & H). assert (G1 := update_fair _ _ _ Fu G H1).
    destruct (w_simul w1); [now injection H as <-|]. destruct (update_full so SO anyK I nonneg covered covered_nil covered_del covered_op w a w1 ltac:(now intros) Fu H1) as (F1 & _). exact (advance_fair _ _ _ F1 G1 H).
  Qed.
  Lemma set_k_fine (r r' : rss QcA) (x : Qc) : set_k (A := QcA) r x = Ok r' -> fine_rss r'.
  Proof.
    unfold set_k. destruct (eqb (a := QcA) x zero) eqn:E; [discriminate|]. intros H. apply bind_ok in H as (t & Ht & H). injection H as <-. intros L. cbn [r_k r_thr] in *.
    assert (Px : (0 < x)%Qc).
    { destruct (Qclt_le_dec 0 x) as [P|P]; [exact P|]. exfalso. destruct (Qc_trunc_spec x) as [_ S]. destruct (S P) as [_ S2]. change (trunc (a := QcA) x) with (Qc_trunc x) in L. assert (Qc_ofZ 1 <= Qc_ofZ (Qc_trunc x))%Qc by (now apply Qc_ofZ_le). change (Qc_ofZ 1) with 1%Qc in *.
      assert (0 <= x)%Qc by qlra. assert (x = 0)%Qc by (apply Qcle_antisym; assumption). subst x. vm_compute in E. discriminate E. }
    rewrite pdiv_ok in Ht by now apply Qc_pos_neq. apply Ok_inj in Ht. rewrite <- Ht. apply Qcdiv_pos; [reflexivity | exact Px].
  Qed.
  Lemma setting_fair v s s' : fair_world (s_w s) -> apply_setting (A := QcA) v s = Ok s' -> fair_world (s_w s').
  Proof.
    intros G H. destruct v; cbn in H; try (injection H as <-; exact G).
    apply bind_ok in H as (r & Hr & H). injection H as <-. destruct G as (G1 & G2 & G3). split; [exact G1|]. split; [exact G2|]. exact (set_k_fine _ _ _ Hr).
  Qed.
  Lemma change_phase_fair s s' : fair_world (s_w s) -> change_phase (A := QcA) s = Ok s' -> fair_world (s_w s').
  Proof.
    intros G H. unfold change_phase in H. apply bind_ok in H as (w1 & H1 & H). apply bind_ok in H as (s2 & H2 & H). apply bind_ok in H as (w2 & H3 & H).
    assert (G1 : fair_world w1). { refine (foldM_inv _ fair_world _ _ w1 _ _ H1); [exact G|]. intros x r y _ Gx J. apply bind_ok in J as (x1 & J1 & J). apply (fair_frame _ _ (rankm_remove_frame _ _ _ J)). exact (fair_frame _ _ (rank_remove_frame _ _ _ J1) Gx). }
    assert (G2 : fair_world (s_w s2)). { refine (foldM_inv _ (fun s => fair_world (s_w s)) _ _ s2 _ _ H2); [exact G1|]. intros x v y _ Gx J. exact (setting_fair _ _ _ Gx J). }
    assert (G3 : fair_world w2).
    { refine (foldM_inv _ fair_world _ _ w2 G2 _ H3). intros x r y _ Gx J. unfold rerank_pool in J. apply bind_ok in J as (p & J1 & J). apply bind_ok in J as (p1 & J2 & J). apply bind_ok in J as (x1 & J3 & J). apply of_option_ok in J1.
      apply (fair_frame _ _ (rankm_add_frame _ _ _ J)). apply (fair_frame _ _ (rank_add_frame _ _ _ J3)). unfold pool_set_profit in J2. apply bind_ok in J2 as (pp & _ & J2). injection J2 as <-. apply (fair_store _ _ p); [exact Gx | exact J1 | reflexivity | reflexivity|]. exact (proj1 Gx _ _ J1). }
    injection H as <-. destruct (phase_settings _ _); exact G3.
  Qed.
  Definition both w : Prop := fullb w /\ fair_world w.
  Lemma events_both evs w w' : both w -> foldM (do_event (A := QcA) so) evs w = Ok w' -> both w'.
  Proof.
    intros G H. refine (foldM_inv _ both evs w w' G _ H). intros x e y _ [Fx Gx] J. split; [|exact (event_fair _ _ _ Fx Gx J)].
    exact (proj1 (event_full so SO anyK I nonneg covered covered_pop covered_nil covered_del covered_op x e y ltac:(now intros) Fx J)).
  Qed.
  Lemma sim_step_fair ch s s' : both (s_w s) -> sim_step (A := QcA) so ch s = Ok s' -> both (s_w s').
  Proof.
    intros G H. split; [exact (proj1 (sim_step_full so SO anyK I nonneg covered covered_pop covered_nil covered_del covered_op ch s s' ltac:(now intros) (proj1 G) H))|].
    apply sim_step_cases in H as [[_ ->]|(_ & w & H & K)]; [exact (proj2 G)|].
    assert (Gw : fair_world w). { unfold schedule_step in H. apply bind_ok in H as (evs & _ & H). exact (proj2 (events_both _ _ _ G H)). }
    destruct K as [[_ ->]|[(_ & _ & ->)|[(_ & _ & _ & s4 & H4 & ->)|(_ & _ & _ & ->)]]]; try exact Gw. apply (fair_same (s_w s4)); [reflexivity..|]. refine (change_phase_fair _ _ _ H4). exact Gw.
  Qed.
  Lemma reach_both s0 s : both (s_w s0) -> reach so s0 s -> both (s_w s).
  Proof. intros G R. induction R as [|ch s s' R IH H]; [exact G | exact (sim_step_fair _ _ _ IH H)]. Qed.
  Lemma visible_both s0 w : both (s_w s0) -> visible so s0 w -> both w.
  Proof. intros G V. destruct V as [s R|s ch evs1 evs2 w R _ H]; [exact (reach_both _ _ G R) | exact (events_both _ _ _ (reach_both _ _ G R) H)]. Qed.
End Shares.
