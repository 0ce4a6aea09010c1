(** Properties of every state of a run with agents acting one at a time, in exact arithmetic: C14, C16, C17. *)
From Coq Require Import ZArith QArith Qcanon List Bool Arith Lia Permutation.
From Verif Require Import Num Py QcTac Rewards SortedKeyList World Stakeholder Sched Sim Init Reach RewardFacts ListFacts SLFacts Greedy PropHelper Inv Static Exec Eval Step SimInv Spec PropInit PropState ExactInv Demo.
Import ListNotations.
Open Scope Qc_scope.

Section Gen.
  Variables (SINGLE NN POS : Prop).
  Variable so : list nat -> list nat -> list nat.
  Hypothesis SO : set_order so.
  Lemma exact_all g profiles stakes costs s0 w : init g profiles stakes costs = Ok s0 -> one_at_a_time g -> inputs_ok SINGLE NN POS g s0 -> visible so s0 w ->
    egood SINGLE NN POS (Z.to_nat (r_k (w_rss (s_w s0)) + 1)) w /\ booked NN w.
  Proof.
    intros H1 H2 H3 V. assert (G := exact_init SINGLE NN POS g profiles stakes costs s0 (fun _ => True) H1 H2 H3 I).
    assert (X := exact_visible SINGLE NN POS so SO (Z.to_nat (r_k (w_rss (s_w s0)) + 1)) (fun _ => True) (fun _ _ _ _ _ _ _ _ _ _ => I) (fun _ _ _ _ _ _ _ => I) (fun _ _ _ => I) s0 w G V).
    destruct X as (G1 & (G2 & _) & _). now split.
  Qed.
  Lemma exact_sim g profiles stakes costs s0 s : init g profiles stakes costs = Ok s0 -> one_at_a_time g -> inputs_ok SINGLE NN POS g s0 -> reach so s0 s ->
    esim SINGLE NN POS (Z.to_nat (r_k (w_rss (s_w s0)) + 1)) (fun w => booked NN w /\ True) s.
  Proof.
    intros H1 H2 H3 V. assert (G := exact_init SINGLE NN POS g profiles stakes costs s0 (fun _ => True) H1 H2 H3 I).
    exact (exact_reach SINGLE NN POS so SO (Z.to_nat (r_k (w_rss (s_w s0)) + 1)) (fun _ => True) (fun _ _ _ _ _ _ _ _ _ _ => I) (fun _ _ _ _ _ _ _ => I) (fun _ _ _ => I) s0 s G V).
  Qed.
End Gen.
Lemma inputs_none g s0 : inputs_ok False False False g s0.
Proof. split; [now right|]. split; [tauto|]. split; tauto. Qed.
Lemma inputs_nonneg g profiles stakes costs s0 : init (A := QcA) g profiles stakes costs = Ok s0 -> 0 <= g_inactive g -> g_inactive g < 1 -> (forall x, In x stakes -> 0 <= x) -> inputs_ok False True False g s0.
Proof. intros H F0 F1 Hx. split; [now right|]. split; [tauto|]. split; [|tauto]. intros _ a ag G. now apply (C27_stakes_nonneg _ _ _ _ _ _ _ H G F0 F1 Hx). Qed.

(** * C14 *)
Theorem C14_stake_is_pledge_plus_delegations : forall so (g : args QcA) profiles (stakes costs : list Qc) (s0 : sim QcA) w, set_order so -> init g profiles stakes costs = Ok s0 -> one_at_a_time g -> visible so s0 w ->
  forall id p, active w id p -> p_stake p = p_pledge p + Qc_sum (values (p_delegators p)).
Proof.
  intros so g profiles stakes costs s0 w SO H1 H2 V id p J. destruct (exact_all False False False so SO _ _ _ _ _ _ H1 H2 (inputs_none _ _) V) as [G _].
  destruct (good_active _ _ _ _ _ G id p J) as (_ & _ & _ & F & _). exact (pf_stake _ _ _ _ F).
Qed.

(** * C16 *)
(** each agent's pledges and delegations together are covered by its stake *)
Theorem C16_no_agent_spends_stake_twice : forall so (g : args QcA) profiles (stakes costs : list Qc) (s0 : sim QcA) w, set_order so -> init g profiles stakes costs = Ok s0 -> one_at_a_time g ->
  0 <= g_inactive g -> g_inactive g < 1 -> (forall x, In x stakes -> 0 <= x) -> visible so s0 w ->
  forall a ag st, plays w a ag st ->
  exists pools, Forall2 (fun r p => get (w_heap w) r = Some p) (values (s_owned st)) pools /\
    Qc_sum (map p_pledge pools) + Qc_sum (values (s_alloc st)) <= a_stake ag.
Proof.
  intros so g profiles stakes costs s0 w SO H1 H2 F0 F1 Hx V a ag st P. destruct (exact_all False True False so SO _ _ _ _ _ _ H1 H2 (inputs_nonneg _ _ _ _ _ H1 F0 F1 Hx) V) as [G [B _]].
  assert (Ex : exists pools, Forall2 (fun r p => get (w_heap w) r = Some p) (values (s_owned st)) pools /\ map (pledge_of w) (values (s_owned st)) = map p_pledge pools).
  { assert (K : forall r, In r (values (s_owned st)) -> exists p, get (w_heap w) r = Some p).
    { intros r J. destruct (proj2 (g_ok _ _ _ _ _ G) a ag (proj1 P)) as [_ N]. destruct (N st (proj2 P)) as [_ No]. apply In_values in J as (id & J); [|assumption].
      destruct (owned_heap _ _ _ _ w a ag st id r G P J) as (_ & p & Gp & _). eauto. }
    revert K. generalize (values (s_owned st)) as l. induction l as [|r l IH]; intros K; [exists []; split; constructor|].
    destruct (K r (or_introl eq_refl)) as (p & Gp). destruct IH as (ps & F & E); [intros; apply K; now right|]. exists (p :: ps). split; [now constructor|]. cbn [map]. rewrite E. f_equal. unfold pledge_of. now rewrite Gp. }
  destruct Ex as (pools & F & E). exists pools. split; [assumption|]. rewrite <- E. exact (B I a ag st P).
Qed.

(** the entries of a dictionary of dictionaries *)
Definition entries {V X} (f : V -> dict X) (d : dict V) : list (nat * nat * X) := flat_map (fun kv => map (fun jx => (fst kv, fst jx, snd jx)) (f (snd kv))) d.
Lemma entries_In {V X} (f : V -> dict X) d k j x : NoDup (keys d) -> (forall k v, In (k, v) d -> NoDup (keys (f v))) -> (In (k, j, x) (entries f d) <-> exists v, get d k = Some v /\ get (f v) j = Some x).
Proof.
  intros N Nf. unfold entries. rewrite in_flat_map. split.
  - intros ([k' v] & J1 & J2). apply in_map_iff in J2 as ([j' x'] & E & J2). cbn in E. injection E as -> -> ->. exists v. split; [now apply In_get|]. apply In_get; [|assumption].
    now apply (Nf k).
  - intros (v & J1 & J2). exists (k, v). split; [now apply get_In|]. apply in_map_iff. exists (j, x). split; [reflexivity | now apply get_In].
Qed.
Lemma entries_NoDup {V X} (f : V -> dict X) d : NoDup (keys d) -> (forall k v, In (k, v) d -> NoDup (keys (f v))) -> NoDup (entries f d).
Proof.
  unfold entries. induction d as [|[k v] d IH]; intros N Nf; cbn [flat_map]; [constructor|]. inversion N as [|? ? N1 N2]; subst.
  assert (D : forall l : dict X, NoDup (keys l) -> NoDup (map (fun jx => (k, fst jx, snd jx)) l)).
  { intros l Nl. apply NoDup_map_inv with (f := fun t => snd (fst t)). rewrite map_map. exact Nl. }
  assert (A1 : NoDup (map (fun jx => (k, fst jx, snd jx)) (f v))) by (apply D; apply (Nf k); now left).
  assert (A2 : NoDup (flat_map (fun kv => map (fun jx => (fst kv, fst jx, snd jx)) (f (snd kv))) d)) by (apply IH; [assumption|]; intros k' v' J; apply (Nf k'); now right).
  clear IH. cbn [fst snd]. revert A1. generalize (f v) as l. induction l as [|[j x] l IHl]; intros A1; cbn [map app]; [assumption|]. inversion A1 as [|? ? B1 B2]; subst. constructor; [|now apply IHl].
  rewrite in_app_iff. intros [J|J]; [contradiction|]. apply in_flat_map in J as ([k' v'] & J1 & J2). apply in_map_iff in J2 as ([j' x'] & E & _). cbn in E. injection E as -> _ _. apply N1. apply (in_map fst) in J1. exact J1.
Qed.
Definition swap {X} (t : nat * nat * X) : nat * nat * X := (snd (fst t), fst (fst t), snd t).
Lemma swap_inj X (x y : nat * nat * X) : swap x = swap y -> x = y.
Proof. destruct x as [[? ?] ?], y as [[? ?] ?]. unfold swap. cbn. congruence. Qed.
Lemma swap_In X l (a b : nat) (x : X) : In (a, b, x) (map swap l) <-> In (b, a, x) l.
Proof. rewrite in_map_iff. split; [intros ([[? ?] ?] & E & J); unfold swap in E; cbn in E; congruence | intros J; exists (b, a, x); auto]. Qed.
Lemma Qc_sum_flat_map {V} (f : V -> list Qc) l : Qc_sum (flat_map f l) = Qc_sum (map (fun v => Qc_sum (f v)) l).
Proof. induction l as [|v l IH]; cbn [flat_map map Qc_sum fold_right]; [reflexivity|]. rewrite Qc_sum_app, IH. reflexivity. Qed.
Lemma entries_sum {V} (f : V -> dict Qc) d : Qc_sum (map snd (entries f d)) = Qc_sum (map (fun kv => total (f (snd kv))) d).
Proof.
  unfold entries. rewrite flat_map_concat_map, concat_map, map_map, <- flat_map_concat_map, Qc_sum_flat_map. f_equal. apply map_ext. intros [k v]. cbn [snd fst]. unfold total. rewrite map_map. reflexivity.
Qed.
Lemma Qc_sum_le {V} (f g : V -> Qc) l : (forall v, In v l -> f v <= g v) -> Qc_sum (map f l) <= Qc_sum (map g l).
Proof.
  induction l as [|v l IH]; intros H; cbn [map Qc_sum fold_right]; [apply Qcle_refl|]. assert (A1 := H v (or_introl eq_refl)). assert (A2 := IH (fun v J => H v (or_intror J))). unfold Qc_sum in A2. qlra.
Qed.
Lemma Qc_sum_plus {V} (f g : V -> Qc) l : Qc_sum (map (fun v => f v + g v) l) = Qc_sum (map f l) + Qc_sum (map g l).
Proof. induction l as [|v l IH]; cbn [map Qc_sum fold_right]; [reflexivity|]. unfold Qc_sum in IH. rewrite IH. ring. Qed.

(** hence all pools together hold no more than all agents together *)
(** the stake of an agent that takes part (abstainers have no strategy) *)
Definition playing_stake (ag : agent QcA) : Qc := match a_strategy ag with Some _ => a_stake ag | None => 0 end.
Theorem C16_pools_hold_no_more_than_players : forall so (g : args QcA) profiles (stakes costs : list Qc) (s0 : sim QcA) w, set_order so -> init g profiles stakes costs = Ok s0 -> one_at_a_time g ->
  0 <= g_inactive g -> g_inactive g < 1 -> (forall x, In x stakes -> 0 <= x) -> visible so s0 w ->
  exists pools, Forall2 (fun r p => get (w_heap w) r = Some p) (values (w_pools w)) pools /\
    Qc_sum (map p_stake pools) <= Qc_sum (map playing_stake (values (w_agents w))).
Proof.
  intros so g profiles stakes costs s0 w SO H1 H2 F0 F1 Hx V.
  destruct (exact_all False True False so SO _ _ _ _ _ _ H1 H2 (inputs_nonneg _ _ _ _ _ H1 F0 F1 Hx) V) as [G [B _]]. specialize (B I).
  assert (Gi := g_inv _ _ _ _ _ G). destruct (g_ok _ _ _ _ _ G) as [Na Ka].
  set (pool_at := fun r => match get (w_heap w) r with Some p => p | None => mkPool (A := QcA) 0 0 0 0 0 false [] 0 0 0 end).
  assert (Hp : forall id r, In (id, r) (w_pools w) -> get (w_heap w) r = Some (pool_at r) /\ active w id (pool_at r)).
  { intros id r J. apply In_get in J; [|apply Gi]. destruct (i_reg _ _ _ _ _ _ Gi id r J) as (p & Gp & _). unfold pool_at. rewrite Gp. split; [reflexivity|]. exists r. auto. }
  exists (map pool_at (values (w_pools w))). split.
  { assert (K : forall r, In r (values (w_pools w)) -> get (w_heap w) r = Some (pool_at r)). { intros r J. apply in_map_iff in J as ([id r'] & E & J). cbn in E. subst r'. now apply (Hp id). }
    revert K. generalize (values (w_pools w)) as l. induction l as [|r l IH]; intros K; cbn [map]; constructor; [apply K; now left | apply IH; intros; apply K; now right]. }
  set (strat := fun ag : agent QcA => match a_strategy ag with Some st => st | None => empty_strategy end).
  (* what pools record is what agents record, in another order *)
  assert (Nal : forall a ag, In (a, ag) (w_agents w) -> NoDup (keys (s_alloc (strat ag)))).
  { intros a ag J. unfold strat. destruct (a_strategy ag) as [st|] eqn:E; [|constructor]. apply In_get in J; [|assumption]. now apply (Ka a ag J). }
  assert (Now : forall a ag, In (a, ag) (w_agents w) -> NoDup (keys (s_owned (strat ag)))).
  { intros a ag J. unfold strat. destruct (a_strategy ag) as [st|] eqn:E; [|constructor]. apply In_get in J; [|assumption]. now apply (Ka a ag J). }
  assert (Nde : forall id r, In (id, r) (w_pools w) -> NoDup (keys (p_delegators (pool_at r)))).
  { intros id r J. apply Hp in J as [_ J]. now destruct (good_active _ _ _ _ _ G _ _ J) as (_ & _ & N & _). }
  assert (P1 : Permutation (entries (fun ag => s_alloc (strat ag)) (w_agents w)) (map swap (entries (fun r => p_delegators (pool_at r)) (w_pools w)))).
  { apply NoDup_Permutation.
    - now apply entries_NoDup.
    - apply NoDup_map_inj; [intros x y _ _; apply swap_inj|]. apply entries_NoDup; [apply Gi | assumption].
    - intros [[a id] v]. rewrite swap_In, entries_In, entries_In; [|apply Gi | assumption | assumption | assumption]. split.
      + intros (ag & J1 & J2). unfold strat in J2. destruct (a_strategy ag) as [st|] eqn:E; [|discriminate].
        assert (Al : al_of w a id = Some v) by (unfold al_of; now rewrite J1, E). destruct (i_al _ _ _ _ _ _ Gi a id v Al) as (_ & r & p & K1 & K2 & _). exists r. split; [assumption|].
        unfold pool_at. rewrite K2. now apply (i_del _ _ _ _ _ _ Gi id r p a v).
      + intros (r & J1 & J2). destruct (Hp id r (get_In _ _ _ J1)) as [K1 _]. apply (i_del _ _ _ _ _ _ Gi id r _ a v J1 K1) in J2. unfold al_of in J2.
        destruct (get (w_agents w) a) as [ag|] eqn:Ea; [|discriminate]. exists ag. split; [reflexivity|]. unfold strat. destruct (a_strategy ag); [assumption | discriminate]. }
  assert (P2 : Permutation (entries (fun ag => s_owned (strat ag)) (w_agents w)) (map swap (entries (fun r => [(p_owner (pool_at r), r)]) (w_pools w)))).
  { apply NoDup_Permutation.
    - now apply entries_NoDup.
    - apply NoDup_map_inj; [intros x y _ _; apply swap_inj|]. apply entries_NoDup; [apply Gi|]. intros. repeat constructor. intros [].
    - intros [[a id] r]. rewrite swap_In, entries_In, entries_In; [|apply Gi | intros; repeat constructor; intros [] | assumption | assumption]. split.
      + intros (ag & J1 & J2). unfold strat in J2. destruct (a_strategy ag) as [st|] eqn:E; [|discriminate].
        assert (Ow : ow_of w a id = Some r) by (unfold ow_of; now rewrite J1, E). destruct (i_own _ _ _ _ _ _ Gi a id r Ow) as [K1 K2]. exists r. split; [assumption|].
        destruct (Hp id r (get_In _ _ _ K1)) as [K3 _]. cbn. rewrite (K2 _ K3), Nat.eqb_refl. reflexivity.
      + intros (r' & J1 & J2). cbn in J2. destruct (Nat.eqb_spec a (p_owner (pool_at r'))) as [Eo|]; [|discriminate]. injection J2 as ->. destruct (i_reg _ _ _ _ _ _ Gi id r J1) as (p & K1 & _ & _ & _ & K2 & _).
        unfold pool_at in Eo. rewrite K1 in Eo. rewrite <- Eo in K2. unfold ow_of in K2. destruct (get (w_agents w) a) as [ag|] eqn:Ea; [|discriminate]. exists ag. split; [reflexivity|]. unfold strat. destruct (a_strategy ag); [assumption | discriminate]. }
  (* sums *)
  assert (S1 : Qc_sum (map (fun kv => total (s_alloc (strat (snd kv)))) (w_agents w)) = Qc_sum (map (fun kv => total (p_delegators (pool_at (snd kv)))) (w_pools w))).
  { assert (Q1 := entries_sum (fun ag => s_alloc (strat ag)) (w_agents w)). assert (Q2 := entries_sum (fun r => p_delegators (pool_at r)) (w_pools w)). assert (Q3 := Qc_sum_perm _ _ (Permutation_map snd P1)). rewrite map_map in Q3.
    transitivity (Qc_sum (map snd (entries (fun ag => s_alloc (strat ag)) (w_agents w)))); [symmetry; exact Q1|]. transitivity (Qc_sum (map snd (entries (fun r => p_delegators (pool_at r)) (w_pools w)))); [exact Q3 | exact Q2]. }
  assert (S2 : Qc_sum (map (fun kv => Qc_sum (map (pledge_of w) (values (s_owned (strat (snd kv)))))) (w_agents w)) = Qc_sum (map (fun kv => p_pledge (pool_at (snd kv))) (w_pools w))).
  { assert (Q := Qc_sum_perm _ _ (Permutation_map (fun t => pledge_of w (snd t)) P2)). rewrite map_map in Q. unfold entries in Q. rewrite !flat_map_concat_map, !concat_map, !map_map, <- !flat_map_concat_map, !Qc_sum_flat_map in Q.
    transitivity (Qc_sum (map (fun v => Qc_sum (map (fun t => pledge_of w (snd t)) (map (fun jx => (fst v, fst jx, snd jx)) (s_owned (strat (snd v)))))) (w_agents w))).
    - f_equal. apply map_ext. intros [a ag]. cbn [snd fst]. unfold values. rewrite !map_map. reflexivity.
    - rewrite Q. f_equal. apply map_ext_in. intros [id r] J. cbn. destruct (Hp id r J) as [K1 _]. unfold pledge_of. rewrite K1. ring. }
  assert (S3 : Qc_sum (map p_stake (map pool_at (values (w_pools w)))) = Qc_sum (map (fun kv => p_pledge (pool_at (snd kv))) (w_pools w)) + Qc_sum (map (fun kv => total (p_delegators (pool_at (snd kv)))) (w_pools w))).
  { rewrite <- Qc_sum_plus. unfold values. rewrite !map_map. f_equal. apply map_ext_in. intros [id r] J. cbn [snd]. destruct (Hp id r J) as [_ J']. destruct (good_active _ _ _ _ _ G _ _ J') as (_ & _ & _ & F & _). exact (pf_stake _ _ _ _ F). }
  rewrite S3, <- S1, <- S2, <- Qc_sum_plus. unfold values. rewrite map_map. apply Qc_sum_le. intros [a ag] J. cbn [snd]. apply In_get in J; [|assumption]. destruct (a_strategy ag) as [st|] eqn:E; unfold strat; rewrite E.
  - unfold playing_stake. rewrite E. apply (B a ag st). now split.
  - unfold playing_stake. rewrite E. change (0 + 0 <= 0). rewrite Qcplus_0_l. apply Qcle_refl.
Qed.
Theorem C16_pools_hold_no_more_than_agents : forall so (g : args QcA) profiles (stakes costs : list Qc) (s0 : sim QcA) w, set_order so -> init g profiles stakes costs = Ok s0 -> one_at_a_time g ->
  0 <= g_inactive g -> g_inactive g < 1 -> (forall x, In x stakes -> 0 <= x) -> visible so s0 w ->
  exists pools, Forall2 (fun r p => get (w_heap w) r = Some p) (values (w_pools w)) pools /\
    Qc_sum (map p_stake pools) <= Qc_sum (map a_stake (values (w_agents w))).
Proof.
  intros so g profiles stakes costs s0 w SO H1 H2 F0 F1 Hx V. destruct (C16_pools_hold_no_more_than_players so g profiles stakes costs s0 w SO H1 H2 F0 F1 Hx V) as (pools & F & L).
  destruct (exact_all False True False so SO _ _ _ _ _ _ H1 H2 (inputs_nonneg _ _ _ _ _ H1 F0 F1 Hx) V) as [G _]. exists pools. split; [exact F|]. eapply Qcle_trans; [exact L|].
  unfold values. rewrite !map_map. apply Qc_sum_le. intros [a ag] J. cbn [snd]. unfold playing_stake. destruct (a_strategy ag); [apply Qcle_refl|].
  apply In_get in J; [|apply (g_ok _ _ _ _ _ G)]. now apply (g_new _ _ _ _ _ G a ag J).
Qed.

(** * C17 *)
Theorem C17_private_pools_have_no_delegators : forall so (g : args QcA) profiles (stakes costs : list Qc) (s0 : sim QcA) w, set_order so -> init g profiles stakes costs = Ok s0 -> one_at_a_time g -> visible so s0 w ->
  forall id p, active w id p -> p_private p = true -> p_delegators p = [].
Proof.
  intros so g profiles stakes costs s0 w SO H1 H2 V id p J. destruct (exact_all False False False so SO _ _ _ _ _ _ H1 H2 (inputs_none _ _) V) as [G _].
  destruct (good_active _ _ _ _ _ G id p J) as (_ & _ & _ & _ & F). now apply F.
Qed.

(** * The hypotheses are met: the run of Demo.v after three rounds has a private pool, an operator who also delegates, and a pool with three delegators *)
Example C14_C16_C17_instance : exists s0 s p1 p3 ag st, init demo_seq demo_profiles demo_stakes demo_costs = Ok s0 /\ visible so_id s0 (s_w s) /\
  active (s_w s) 1 p1 /\ p_private p1 = true /\ active (s_w s) 3 p3 /\ p_owner p3 = 1%nat /\
  p_delegators p3 = [(0%nat, Q2Qc (1#5)); (2%nat, Q2Qc (1#10)); (3%nat, Q2Qc (1#10))] /\ p_pledge p3 = Q2Qc (1#20) /\ p_stake p3 = Q2Qc (9#20) /\
  plays (s_w s) 0 ag st /\ keys (s_owned st) = [1%nat] /\ s_alloc st = [(3%nat, Q2Qc (1#5))] /\ a_stake ag = Q2Qc (7#10).
Proof.
  destruct (steps_check demo_init 3 (fun s => pool_is (s_w s) 1 p_private &&
      pool_is (s_w s) 3 (fun p => Nat.eqb (p_owner p) 1 && dict_eqb (p_delegators p) [(0%nat, Q2Qc (1#5)); (2%nat, Q2Qc (1#10)); (3%nat, Q2Qc (1#10))] && Qc_eqb (p_pledge p) (Q2Qc (1#20)) && Qc_eqb (p_stake p) (Q2Qc (9#20))) &&
      agent_is (s_w s) 0 (fun ag st => (match keys (s_owned st) with [1%nat] => true | _ => false end) && dict_eqb (s_alloc st) [(3%nat, Q2Qc (1#5))] && Qc_eqb (a_stake ag) (Q2Qc (7#10))))) as (s0 & s & H1 & H2 & H3).
  { vm_compute. reflexivity. }
  cbv beta in H3. apply andb_true_iff in H3 as [H3 K3]. apply andb_true_iff in H3 as [K1 K2]. apply pool_is_active in K1 as (p1 & A1 & B1). apply pool_is_active in K2 as (p3 & A3 & B3). apply agent_is_plays in K3 as (ag & st & A4 & B4).
  exists s0, s, p1, p3, ag, st. 
  apply andb_true_iff in B3 as [B3 C4]. apply andb_true_iff in B3 as [B3 C3]. apply andb_true_iff in B3 as [C1 C2]. apply andb_true_iff in B4 as [B4 D3]. apply andb_true_iff in B4 as [D1 D2].
  split; [exact H1|]. split; [apply vis_between; eapply steps_reach; exact H2|]. split; [assumption|]. split; [assumption|]. split; [assumption|]. split; [now apply Nat.eqb_eq|]. split; [now apply dict_eqb_eq|].
  split; [now apply Qc_eqb_eq|]. split; [now apply Qc_eqb_eq|]. split; [assumption|]. split; [|split; [now apply dict_eqb_eq | now apply Qc_eqb_eq]].
  destruct (keys (s_owned st)) as [|[|[|?]] [|? ?]]; congruence.
Qed.
