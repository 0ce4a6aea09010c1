(** Only the proportions of the sampled stakes matter (C86). *)
From Coq Require Import ZArith QArith Qcanon List Bool Arith Lia.
From Verif Require Import Num Py QcTac Rewards RewardFacts SortedKeyList World Stakeholder Helper Sched Sim Init ListFacts PropSched PropInit PropRewards PropMove.
Import ListNotations.
Open Scope Qc_scope.

Definition scale_agent (c : Qc) (e : nat * agent QcA) : nat * agent QcA := (fst e, agent_set_stake (A := QcA) (c * a_stake (snd e)) (snd e)).

Lemma py_index_map {V W} (f : V -> W) l i : py_index (map f l) i = let! v := py_index l i in Ok (f v).
Proof. unfold py_index. rewrite map_length. destruct (_ && _); [|reflexivity]. rewrite nth_error_map. destruct (nth_error _ _); reflexivity. Qed.
Lemma scale_make_agents c n profiles (stakes costs : list Qc) : make_agents (A := QcA) n profiles (map (Qcmult c) stakes) costs = let! d := make_agents (A := QcA) n profiles stakes costs in Ok (map (scale_agent c) d).
Proof.
  unfold make_agents. change (T QcA) with Qc in *. induction (seq 0 (Z.to_nat n)) as [|i l IH]; [reflexivity|]. cbn [mapM]. rewrite IH. rewrite (py_index_map (Qcmult c) stakes). clear IH. change (T QcA) with Qc in *.
  destruct (py_index profiles (Z.of_nat i)) as [p|e]; [|reflexivity]. cbn [bind]. destruct (@py_index Qc stakes (Z.of_nat i)) as [s|e]; [|reflexivity]. cbn [bind].
  destruct (@py_index Qc costs (Z.of_nat i)) as [x|e]; [|reflexivity]. cbn [bind]. destruct (mapM _ l) as [d|e]; reflexivity.
Qed.
Lemma scale_sum c (l : list Qc) : Qc_sum (map (Qcmult c) l) = c * Qc_sum l.
Proof. induction l as [|x l IH]; [change (0 = c * 0); ring|]. change (c * x + Qc_sum (map (Qcmult c) l) = c * (x + Qc_sum l)). rewrite IH. ring. Qed.
Definition share_of (t : Qc) (e : nat * agent QcA) : nat * agent QcA := (fst e, agent_set_stake (A := QcA) (a_stake (snd e) / t) (snd e)).
Lemma shares t d : t <> 0 -> mapM (fun e => let! s := pdiv (A := QcA) (a_stake (snd e)) t in Ok (fst e, agent_set_stake s (snd e))) d = Ok (map (share_of t) d).
Proof. intros H. apply mapM_pure. intros e _. now rewrite pdiv_ok by assumption. Qed.
Lemma share_scale c t e : c <> 0 -> t <> 0 -> share_of (c * t) (scale_agent c e) = share_of t e.
Proof. intros Hc Ht. destruct e as [i ag]. unfold share_of, scale_agent. cbn [fst snd]. f_equal. destruct ag. unfold agent_set_stake. cbn. f_equal. change (T QcA) with Qc in *. field. now split. Qed.
Lemma normalize_scale c t d : c <> 0 -> t <> 0 -> normalize (A := QcA) (c * t) (map (scale_agent c) d) = normalize (A := QcA) t d.
Proof.
  intros Hc Ht. unfold normalize. assert (H : c * t <> 0) by (intros E; apply Qcmult_integral in E as [E|E]; contradiction). rewrite !shares by assumption. rewrite map_map. rewrite (map_ext _ _ (fun e => share_scale c t e Hc Ht)). reflexivity.
Qed.
Lemma share_one e : share_of 1 e = e.
Proof. destruct e as [i [id st co pr sg nw]]. unfold share_of, agent_set_stake. cbn. do 2 f_equal. field. discriminate. Qed.

(** ** The construction does not see the scale *)
Definition total_of (g : args QcA) (stakes : list Qc) : Qc := Qc_sum stakes / (1 - g_inactive g).

Lemma init_scale (g : args QcA) profiles (stakes costs : list Qc) (c : Qc) : 0 < c ->
  (forall r s1, make_rss (A := QcA) (g_scheme g) = Ok r -> foldM set_field (fields g) (blank r) = Ok s1 -> (total_of g stakes = 1 \/ c * total_of g stakes = 1) -> c <> 1 -> g_inactive g = 0 /\ length stakes = Z.to_nat (s_n s1)) ->
  init g profiles (map (Qcmult c) stakes) costs = init g profiles stakes costs.
Proof.
  intros Hc HS. destruct (Qc_eqb_spec c 1) as [->|N1].
  { f_equal. transitivity (map (fun x => x) stakes); [apply map_ext; intros x; ring | apply map_id]. }
  unfold init. destruct (make_rss (A := QcA) (g_scheme g)) as [r0|e]; [|reflexivity]. cbn [bind]. destruct (foldM set_field (fields g) (blank r0)) as [s1|e] eqn:E1; [|reflexivity]. cbn [bind]. specialize (HS r0 s1 eq_refl E1).
  match goal with |- bind ?r _ = bind ?r _ => destruct r as [r1|e]; [|reflexivity] end. cbn [bind]. rewrite scale_make_agents.
  destruct (make_agents (A := QcA) (s_n s1) profiles stakes costs) as [ags|e] eqn:Ea; [|reflexivity]. cbn [bind]. rewrite !psum_sum. rewrite scale_sum. change (sub (a := QcA) one (g_inactive g)) with (1 - g_inactive g).
  unfold pdiv. change (@eqb QcA) with Qc_eqb. change (@zero QcA) with 0. destruct (Qc_eqb_spec (1 - g_inactive g) 0) as [E0|E0]; [reflexivity|]. cbn [bind]. change (div (a := QcA)) with Qcdiv.
  assert (Et : c * Qc_sum stakes / (1 - g_inactive g) = c * total_of g stakes) by (unfold total_of; change (T QcA) with Qc in *; field; assumption). rewrite Et. fold (total_of g stakes). set (t := total_of g stakes) in *.
  change (@leb QcA) with Qc_leb. change (@one QcA) with 1. destruct (Qc_leb_spec t 0) as [L|L].
  { destruct (Qc_leb_spec (c * t) 0) as [L'|L']; [reflexivity|]. exfalso. apply L'. replace 0 with (c * 0) by ring. apply Qcmult_le_l; [now apply Qclt_le_weak | assumption]. }
  apply Qcnot_le_lt in L. destruct (Qc_leb_spec (c * t) 0) as [L'|L']. { exfalso. assert (0 < c * t) by (now apply Qcmult_pos). qlra. }
  assert (C0 : c <> 0) by qlra. assert (T0 : t <> 0) by qlra.
  assert (NS := normalize_scale c t ags C0 T0).
  (* normalising a distribution that already adds up to one changes nothing *)
  assert (NO : g_inactive g = 0 -> length stakes = Z.to_nat (s_n s1) -> t = 1 -> normalize (A := QcA) t ags = Ok (ags, 1)).
  { intros I0 Ln E. unfold normalize. rewrite shares by assumption. cbn [bind]. rewrite E, (map_ext _ _ share_one), map_id, psum_sum. fold (agent_stakes ags). destruct (make_agents_stakes _ _ _ _ _ Ea) as [-> _]. rewrite <- Ln, firstn_all.
    assert (Et1 : Qc_sum stakes = 1). { unfold t, total_of in E. rewrite I0 in E. rewrite <- E. change (T QcA) with Qc in *. field. discriminate. }
    rewrite Et1. reflexivity. }
  destruct (Qc_eqb_spec t 1) as [T1|T1], (Qc_eqb_spec (c * t) 1) as [T2|T2].
  - exfalso. apply N1. rewrite T1 in T2. rewrite <- T2. ring.
  - destruct (HS (or_introl T1) N1) as [I0 Ln]. rewrite NS, (NO I0 Ln T1), T1. reflexivity.
  - destruct (HS (or_intror T2) N1) as [I0 Ln].
    assert (S0 : normalize (A := QcA) (c * t) (map (scale_agent c) ags) = Ok (map (scale_agent c) ags, 1)).
    { unfold normalize. assert (H : c * t <> 0) by (rewrite T2; discriminate). rewrite shares by assumption. cbn [bind]. rewrite T2, (map_ext _ _ share_one), map_id, psum_sum. rewrite map_map.
      replace (map (fun x => a_stake (snd (scale_agent c x))) ags) with (map (Qcmult c) (agent_stakes ags)) by (unfold agent_stakes; now rewrite map_map). rewrite scale_sum. destruct (make_agents_stakes _ _ _ _ _ Ea) as [-> _]. rewrite <- Ln, firstn_all.
      assert (Et1 : c * Qc_sum stakes = 1). { unfold t, total_of in T2. rewrite I0 in T2. rewrite <- T2. change (T QcA) with Qc in *. field. discriminate. }
      rewrite Et1. reflexivity. }
    rewrite <- NS, S0, T2. reflexivity.
  - now rewrite NS.
Qed.

(** Multiplying all sampled stakes by the same positive number changes nothing: the simulation that is constructed is the same, hence so is everything that happens in it. *)
Theorem C86_scale_invariant : forall (g : args QcA) profiles (stakes costs : list Qc) (s0 : sim QcA) (c : Qc), 0 < c -> g_inactive g = 0 -> init g profiles stakes costs = Ok s0 -> length stakes = Z.to_nat (s_n s0) ->
  init g profiles (map (Qcmult c) stakes) costs = Ok s0.
Proof.
  intros g profiles stakes costs s0 c Hc I0 H L. rewrite init_scale; [exact H | exact Hc|]. intros r s1 Hr H1 _ _. split; [exact I0|].
  apply init_inv in H as (r' & s1' & ags & tot & ags' & tot' & Hr' & H1' & _ & _ & _ & _ & _ & _ & _ & En & _). rewrite Hr in Hr'. apply Ok_inj in Hr'. subst r'. rewrite H1 in H1'. apply Ok_inj in H1'. subst s1'. now rewrite L, En.
Qed.
(** a rejected distribution is also rejected at every scale *)
Theorem C86_rejected_at_every_scale : forall (g : args QcA) profiles (stakes costs : list Qc) (c : Qc), 0 < c -> g_inactive g = 0 ->
  (forall s0, init g profiles stakes costs = Ok s0 -> length stakes = Z.to_nat (s_n s0)) -> (forall s0, init g profiles (map (Qcmult c) stakes) costs = Ok s0 -> length stakes = Z.to_nat (s_n s0)) ->
  forall s0, init g profiles (map (Qcmult c) stakes) costs = Ok s0 <-> init g profiles stakes costs = Ok s0.
Proof.
  intros g profiles stakes costs c Hc I0 L1 L2 s0. split; intros H; [|now apply C86_scale_invariant; auto].
  assert (C0 : c <> 0) by qlra. assert (P := C86_scale_invariant g profiles (map (Qcmult c) stakes) costs s0 (1 / c) (Qcdiv_pos 1 c ltac:(qlra) Hc) I0 H). rewrite map_length in P. specialize (P (L2 _ H)).
  rewrite map_map in P. rewrite <- P. f_equal. transitivity (map (fun x => x) stakes); [symmetry; apply map_id | apply map_ext; intros x; field; exact C0].
Qed.
(** with inactive stake this holds whenever neither of the two distributions happens to add up to exactly the active fraction *)
Theorem C86_scale_with_inactive_stake : forall (g : args QcA) profiles (stakes costs : list Qc) (c : Qc), 0 < c -> Qc_sum stakes <> 1 - g_inactive g -> c * Qc_sum stakes <> 1 - g_inactive g ->
  init g profiles (map (Qcmult c) stakes) costs = init g profiles stakes costs.
Proof.
  intros g profiles stakes costs c Hc N1 N2. destruct (Qc_eqb_spec (1 - g_inactive g) 0) as [E|E].
  - unfold init. destruct (make_rss (A := QcA) (g_scheme g)) as [r0|e]; [|reflexivity]. cbn [bind]. destruct (foldM set_field (fields g) (blank r0)) as [s1|e]; [|reflexivity]. cbn [bind].
    match goal with |- bind ?r _ = bind ?r _ => destruct r as [r1|e]; [|reflexivity] end. cbn [bind]. rewrite scale_make_agents. destruct (make_agents (A := QcA) (s_n s1) profiles stakes costs) as [ags|e]; [|reflexivity]. cbn [bind].
    unfold pdiv. change (sub (a := QcA) one (g_inactive g)) with (1 - g_inactive g). change (@eqb QcA) with Qc_eqb. change (@zero QcA) with 0. destruct (Qc_eqb_spec (1 - g_inactive g) 0); [reflexivity | contradiction].
  - apply init_scale; [exact Hc|]. intros r s1 _ _ [T|T] _; exfalso; unfold total_of in T.
    + apply N1. rewrite <- (Qcdiv_mul (Qc_sum stakes) (1 - g_inactive g) E), T. ring.
    + apply N2. rewrite <- (Qcdiv_mul (Qc_sum stakes) (1 - g_inactive g) E). transitivity (c * (Qc_sum stakes / (1 - g_inactive g)) * (1 - g_inactive g)); [ring|]. rewrite T. ring.
Qed.
(** otherwise the scale matters: a distribution that adds up to exactly the active fraction is left as it is, the same distribution at another scale is normalised to 1 *)
Definition scale_stakes : list Qc := [Q2Qc (3#10); Q2Qc (2#10)].
Definition scale_args (f : Qc) : args QcA := mkArgs (A := QcA) (Single 2%Z) (Single (Q2Qc 2)) (Single (Q2Qc (3#10))) (Single 0) (Single (Q2Qc (1#100))) (Single 100%Z) (Single 0) (Single Sequential) (Single true) 0 f false 5.
Definition scale_costs : list Qc := [Q2Qc (1#100); Q2Qc (1#100)].
Definition stake_is (r : res (sim QcA)) (a : nat) (x : Qc) : bool := match r with Ok s0 => match get (w_agents (s_w s0)) a with Some ag => Qc_eqb (a_stake ag) x | None => false end | _ => false end.
Lemma stake_is_spec r a x : stake_is r a x = true -> exists s0 ag, r = Ok s0 /\ get (w_agents (s_w s0)) a = Some ag /\ a_stake ag = x.
Proof. unfold stake_is. destruct r as [s0|]; [|discriminate]. destruct (get (w_agents (s_w s0)) a) as [ag|] eqn:E; [|discriminate]. intros H. exists s0, ag. split; [reflexivity|]. split; [exact E|]. now destruct (Qc_eqb_spec (a_stake ag) x). Qed.
Theorem C86_inactive_stake_refuted : exists (g : args QcA) profiles (stakes costs : list Qc) (c : Qc) s s' ag ag', 0 < c /\ length stakes = 2%nat /\ init g profiles stakes costs = Ok s /\ init g profiles (map (Qcmult c) stakes) costs = Ok s' /\
  get (w_agents (s_w s)) 1 = Some ag /\ get (w_agents (s_w s')) 1 = Some ag' /\ a_stake ag = Q2Qc (2#10) /\ a_stake ag' = Q2Qc (7#10).
Proof.
  destruct (stake_is_spec (init (scale_args (Q2Qc (1#2))) [NonMyopic; NonMyopic] scale_stakes scale_costs) 1 (Q2Qc (2#10))) as (s & ag & H1 & H2 & H3); [vm_compute; reflexivity|].
  destruct (stake_is_spec (init (scale_args (Q2Qc (1#2))) [NonMyopic; NonMyopic] (map (Qcmult (Q2Qc 2)) scale_stakes) scale_costs) 1 (Q2Qc (7#10))) as (s' & ag' & H1' & H2' & H3'); [vm_compute; reflexivity|].
  exists (scale_args (Q2Qc (1#2))), [NonMyopic; NonMyopic], scale_stakes, scale_costs, (Q2Qc 2), s, s', ag, ag'. split; [reflexivity|]. split; [reflexivity|]. split; [exact H1|]. split; [exact H1'|]. split; [exact H2|]. split; [exact H2'|]. now split.
Qed.
(** the hypotheses are met *)
Example C86_instance : exists s0 ag, init (scale_args 0) [NonMyopic; Myopic] scale_stakes scale_costs = Ok s0 /\ length scale_stakes = Z.to_nat (s_n s0) /\ g_inactive (scale_args 0) = 0 /\ get (w_agents (s_w s0)) 1 = Some ag /\ a_stake ag = Q2Qc (2#5).
Proof.
  destruct (stake_is_spec (init (scale_args 0) [NonMyopic; Myopic] scale_stakes scale_costs) 1 (Q2Qc (2#5))) as (s & ag & H1 & H2 & H3); [vm_compute; reflexivity|].
  assert (L : match init (scale_args 0) [NonMyopic; Myopic] scale_stakes scale_costs with Ok s0 => Nat.eqb 2 (Z.to_nat (s_n s0)) | _ => false end = true) by (vm_compute; reflexivity). rewrite H1 in L. apply Nat.eqb_eq in L. exists s, ag. auto 6.
Qed.
