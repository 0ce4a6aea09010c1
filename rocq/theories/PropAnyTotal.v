(** C66: which exceptions step() can raise, for every activation order. *)
From Coq Require Import ZArith List Bool Arith Lia Permutation QArith Qcanon.
From Verif Require Import Num Py QcTac Rewards SortedKeyList World Stakeholder Sched Sim Init Reach ListFacts Inv SimInv Spec PropState PropRewards PropInit PropReporters PropRun PropSched PropPhase PropTotal.
From Verif Require Import Persons AnyOrder AnyBooks PropBooks AnyRank AnyTotal PropSimul Demo RewardFacts.
From Verif Require Abstain.
Import ListNotations.
Open Scope nat_scope.
Local Open Scope Qc_scope.

Section Run.
  Variable so : list nat -> list nat -> list nat.
  Hypothesis SO : set_order so.
  Variables (g : args QcA) (profiles : list profile) (stakes costs : list Qc) (s0 : sim QcA).
  Hypothesis H : init g profiles stakes costs = Ok s0.
  Hypothesis SP : single_phase g.
  Hypothesis SI : sound_inputs g stakes.
  Hypothesis ND : ~ degenerate_cip50 g.
  Notation rs0 := (w_rss (s_w s0)).
  Notation m0 := (Z.to_nat (r_k rs0 + 1)).
  Notation L := (fun a : nat => exists ag, get (w_agents (s_w s0)) a = Some ag /\ a_profile ag <> Abstainer).
  Lemma one_phase s : reach so s0 s -> c_phases (s_c s) = 1%nat.
  Proof.
    intros R. rewrite (reach_conf so _ _ R). assert (F := init_fresh _ _ _ _ _ H). apply (fs_phases _ _ _ _ _ F). destruct (c_multi (s_c s0)) as [|l ls] eqn:E; [reflexivity|]. exfalso.
    destruct (SP (Multi l)) as (v & X); [|discriminate]. apply (fs_multi _ _ _ _ _ F). rewrite E. now left.
  Qed.
  Lemma start_ok : st_ok m0 rs0 L (s_w s0).
  Proof.
    destruct (start_facts g profiles stakes costs s0 H SI ND) as ((_ & _ & _ & St) & (Rs & _) & _). assert (F := init_fresh _ _ _ _ _ H). assert (G := init_good QcA_ord _ _ _ _ _ H).
    destruct (St I) as (Sp & _). constructor.
    - exact G.
    - constructor; [split; [exact (full_own _ (proj1 G)) | exact (proj2 (proj2 G))] | reflexivity|]. intros r p X. rewrite (fs_heap _ _ _ _ _ F) in X. discriminate.
    - apply (init_full anyK I posst plan plan_nil g profiles stakes costs s0); [|exact H]. exact Sp.
    - intros a ag Ga. destruct (fs_agents _ _ _ _ _ F a ag Ga) as (x & c & p & E & _ & Np). split; [|split].
      + intros (bg & Gb & Pb). rewrite Ga in Gb. injection Gb as <-. rewrite E in *. destruct p; cbn in *; congruence.
      + intros Pa. exists ag. now split.
      + rewrite E. cbn. congruence.
  Qed.

  (** from an invariant of all events *)
  Section Invariant.
    Variable J : world QcA -> Prop.
    Hypothesis J_start : J (s_w s0).
    Hypothesis J_events : forall evs w, J w -> kp (foldM (do_event so) evs w) J.
    Hypothesis J_idle : forall w, J w -> J (with_idle true w).
    Lemma reach_J s : reach so s0 s -> J (s_w s).
    Proof.
      induction 1 as [|ch s s' R IH E]; [exact J_start|]. assert (P := one_phase s R).
      apply sim_step_cases in E as [(_ & ->)|(_ & w & Hw & E)]; [exact IH|]. unfold schedule_step in Hw. apply bind_ok in Hw as (evs & _ & Hw).
      assert (Q := J_events evs (s_w s) IH). rewrite Hw in Q. cbn [kp] in Q. assert (Id := J_idle w Q).
      destruct E as [(_ & ->)|[(_ & _ & ->)|[(_ & _ & Lp & _)|(_ & _ & _ & ->)]]]; [exact Id | exact Id | cbn in Lp; lia | exact Q].
    Qed.
    Lemma visible_J w : visible so s0 w -> J w.
    Proof.
      intros [s R|s ch evs1 evs2 w' R _ Hw]; [exact (reach_J s R)|]. assert (Q := J_events evs1 (s_w s) (reach_J s R)). rewrite Hw in Q. exact Q.
    Qed.
    Lemma step_J s ch : reach so s0 s -> fair ch -> (exists s', sim_step so ch s = Ok s') \/ exists e, sim_step so ch s = Err e /\ allowed e.
    Proof.
      intros R F. assert (P := one_phase s R). unfold sim_step. cbn [s_maxit set_rows s_steps s_c s_w]. destruct (_ <=? _)%Z; [eauto|].
      assert (N : NoDup (keys (w_agents (s_w s)))). { assert (W := C56_agents_never_change QcA so s0 _ (vis_between _ _ _ _ R)). apply (f_equal (map fst)) in W. unfold who in W. rewrite !map_map in W. change (keys (w_agents (s_w s)) = keys (w_agents (s_w s0))) in W. rewrite W, (fs_keys _ _ _ _ _ (init_fresh _ _ _ _ _ H)). apply seq_NoDup. }
      destruct (C26_round (c_sched (s_c s)) ch _ F N) as (evs & He & _). unfold schedule_step. rewrite He. cbn [bind].
      assert (Q := J_events evs (s_w s) (reach_J s R)). destruct (foldM (do_event so) evs (s_w s)) as [w|e]; cbn [bind kp] in *; [|right; eauto].
      left. repeat match goal with |- context [if ?b then _ else _] => destruct b eqn:? end; eauto. exfalso. match goal with X : Nat.ltb _ _ = true |- _ => apply Nat.ltb_lt in X; cbn in X; lia end.
    Qed.
    Lemma run_J ch : (forall i, fair (ch i)) -> (exists s, run_model so ch s0 = Ok s) \/ exists e, run_model so ch s0 = Err e /\ allowed e.
    Proof.
      intros F. destruct (C29_run_model_terminates QcA so g profiles stakes costs s0 ch H) as (n & R & _).
      enough (Q : forall n s r, run so ch n s r -> reach so s0 s -> (exists s', r = Ok s') \/ exists e, r = Err e /\ allowed e) by (apply (Q n s0 _ R); constructor).
      clear n R. intros n s r R. induction R as [s Lt|s e Lt E|n s s1 r Lt E R IH]; intros RC; [eauto| |].
      - destruct (step_J s _ RC (F (s_steps s))) as [(s' & E')|(e' & E' & Al)]; rewrite E' in E; [discriminate | injection E as <-; eauto].
      - apply IH. econstructor; eassumption.
    Qed.
  End Invariant.
  Notation fine' Gd := (fine m0 rs0 L (w_phi (s_w s0)) Gd).
  Lemma start_fine Gd : roles rs0 (w_phi (s_w s0)) Gd (s_w s0) -> fine' Gd (s_w s0).
  Proof.
    intros Ro. assert (F := init_fresh _ _ _ _ _ H). constructor; [exact start_ok | reflexivity | exact Ro | | |].
    - intros id r p G. rewrite (fs_pools _ _ _ _ _ F) in G. discriminate.
    - intros a ag new id r Ga Hn. destruct (fs_agents _ _ _ _ _ F a ag Ga) as (x & c & p & -> & _). discriminate.
    - intros a ag st id Ga _ C J. destruct (fs_agents _ _ _ _ _ F a ag Ga) as (x & c & p & -> & _). destruct C as [C|C]; [|discriminate]. cbn in C. destruct p; try discriminate; injection C as <-; destruct J.
  Qed.
  Lemma fine_idle Gd w : fine' Gd w -> fine' Gd (with_idle true w).
  Proof. intros [[G [E1 E2 E3] F A] B C D E X]. constructor; [|exact B | exact C | exact D | exact E | exact X]. constructor; [now apply (good_same m0 w) | now constructor | now apply (full_same _ _ _ w) | exact A]. Qed.
  Lemma keeps_fine Gd evs w : fine' Gd w -> kp (foldM (do_event so) evs w) (fine' Gd).
  Proof. destruct (start_facts g profiles stakes costs s0 H SI ND) as (_ & (Rs & Rc & Rk & _) & _). exact (events_fine so SO m0 rs0 Rs Rc Rk (le_n _) L (w_phi (s_w s0)) Gd evs w). Qed.
  (** agents whose pools are worth having *)
  Definition thrives a : Prop := exists ag, get (w_agents (s_w s0)) a = Some ag /\ (a_profile ag = NonMyopic \/ a_profile ag = Myopic /\ able rs0 (a_stake ag) (a_cost ag) (w_phi (s_w s0))).
  Lemma thrives_roles : roles rs0 (w_phi (s_w s0)) thrives (s_w s0).
  Proof.
    intros a ag Ga. split; [intros Ep; exists ag; auto|]. intros Ep. split; [|intros A; exists ag; auto]. intros (bg & Gb & C). rewrite Ga in Gb. injection Gb as <-. destruct C as [C|[_ C]]; [congruence | exact C].
  Qed.
  Lemma visible_fine w : visible so s0 w -> fine' thrives w.
  Proof. exact (visible_J _ (start_fine _ thrives_roles) (keeps_fine thrives) (fine_idle thrives) w). Qed.
End Run.

(** Whatever the activation order and the mix of agents, step() on a reached state returns or fails looking something up in a dictionary: no division by zero, no index out of range, no missing attribute or value, no endless search.
    One phase, positive stakes, k >= 1, a0 >= 0, and not the CIP-50 scheme with a0 = 0; costs may have any sign.  Missing for the full statement: what is refuted above. *)
Theorem C66_step_fails_only_with_KeyError_partial :
  forall so (g : args QcA) profiles (stakes costs : list Qc) (s0 s : sim QcA) ch, set_order so -> init g profiles stakes costs = Ok s0 -> single_phase g -> sound_inputs g stakes -> ~ degenerate_cip50 g ->
  reach so s0 s -> fair ch ->
  (exists s', sim_step so ch s = Ok s') \/ sim_step so ch s = Err KeyError.
Proof.
  intros so g profiles stakes costs s0 s ch SO H SP SI ND R F.
  destruct (step_J so g profiles stakes costs s0 H SP _ (start_fine g profiles stakes costs s0 H SI ND _ (thrives_roles s0)) (keeps_fine so SO g profiles stakes costs s0 H SI ND _) (fine_idle s0 _) s ch R F) as [Q|(e & E & ->)]; auto.
Qed.
Theorem C66_run_fails_only_with_KeyError_partial :
  forall so (g : args QcA) profiles (stakes costs : list Qc) (s0 : sim QcA) ch, set_order so -> init g profiles stakes costs = Ok s0 -> single_phase g -> sound_inputs g stakes -> ~ degenerate_cip50 g ->
  (forall i, fair (ch i)) ->
  (exists s, run_model so ch s0 = Ok s) \/ run_model so ch s0 = Err KeyError.
Proof.
  intros so g profiles stakes costs s0 ch SO H SP SI ND F.
  destruct (run_J so g profiles stakes costs s0 H SP _ (start_fine g profiles stakes costs s0 H SI ND _ (thrives_roles s0)) (keeps_fine so SO g profiles stakes costs s0 H SI ND _) (fine_idle s0 _) ch F) as [Q|(e & E & ->)]; auto.
Qed.

(** C76: whatever the activation order, if no agent is myopic, every pool in operation could make a profit if it were saturated. *)
Theorem C76_pools_are_worth_having_in_every_order :
  forall so (g : args QcA) profiles (stakes costs : list Qc) (s0 : sim QcA) w, set_order so -> init g profiles stakes costs = Ok s0 -> single_phase g -> sound_inputs g stakes -> ~ degenerate_cip50 g ->
  ~ In Myopic profiles -> visible so s0 w -> forall id p, active w id p ->
  exists u, potential_profit (A := QcA) (w_rss w) (p_pledge p) (p_cost p) = Ok u /\ 0 < u.
Proof.
  intros so g profiles stakes costs s0 w SO H SP SI ND Mx V id p (r & G & Gp).
  assert (Ro : roles (w_rss (s_w s0)) (w_phi (s_w s0)) (fun _ => True) (s_w s0)).
  { intros a ag Ga. split; [auto|]. intros E. exfalso. destruct (fs_agents _ _ _ _ _ (init_fresh _ _ _ _ _ H) a ag Ga) as (x & c & q & -> & _ & Np). cbn in E. subst q. apply nth_error_In in Np. contradiction. }
  destruct (visible_J so g profiles stakes costs s0 H SP _ (start_fine g profiles stakes costs s0 H SI ND _ Ro) (keeps_fine so SO g profiles stakes costs s0 H SI ND _) (fine_idle s0 _) w V) as [S _ _ W _ _].
  exists (p_pp p). split; [|now apply (proj2 (W id r p G Gp))]. rewrite (es_rss _ _ _ _ (so_es _ _ _ _ S)). exact (ExactInv.pf_pp _ _ _ _ (proj1 (proj1 (es_heap _ _ _ _ (so_es _ _ _ _ S) r p Gp)))).
Qed.
(** Also if myopic agents take part, every pool in operation that is open to delegations could make a profit if it were saturated ... *)
Theorem C76_public_pools_are_worth_having_in_every_order :
  forall so (g : args QcA) profiles (stakes costs : list Qc) (s0 : sim QcA) w, set_order so -> init g profiles stakes costs = Ok s0 -> single_phase g -> sound_inputs g stakes -> ~ degenerate_cip50 g ->
  visible so s0 w -> forall id p, active w id p -> p_private p = false ->
  exists u, potential_profit (A := QcA) (w_rss w) (p_pledge p) (p_cost p) = Ok u /\ 0 < u.
Proof.
  intros so g profiles stakes costs s0 w SO H SP SI ND V id p (r & G & Gp) Pv.
  destruct (visible_fine so SO g profiles stakes costs s0 H SP SI ND w V) as [S _ _ W _ _]. destruct (W id r p G Gp) as [[P|P] _]; [|congruence].
  exists (p_pp p). split; [|exact P]. rewrite (es_rss _ _ _ _ (so_es _ _ _ _ S)). exact (ExactInv.pf_pp _ _ _ _ (proj1 (proj1 (es_heap _ _ _ _ (so_es _ _ _ _ S) r p Gp)))).
Qed.
(** ... and a pool that could not belongs to a myopic agent for whom no number of pools would make a profit. *)
Theorem C76_pools_without_profit_are_private :
  forall so (g : args QcA) profiles (stakes costs : list Qc) (s0 : sim QcA) w, set_order so -> init g profiles stakes costs = Ok s0 -> single_phase g -> sound_inputs g stakes -> ~ degenerate_cip50 g ->
  visible so s0 w -> forall id p u, active w id p -> potential_profit (A := QcA) (w_rss w) (p_pledge p) (p_cost p) = Ok u -> u <= 0 ->
  p_private p = true /\ exists ag, get (w_agents w) (p_owner p) = Some ag /\ a_profile ag = Myopic /\
  forall n (pledge cost v : Qc), (1 <= n <= r_k (w_rss w))%Z -> pledge_per_pool (A := QcA) (a_stake ag) (r_thr (w_rss w)) n = Ok pledge -> cost_per_pool (A := QcA) n (a_cost ag) (w_phi w) = Ok cost -> potential_profit (A := QcA) (w_rss w) pledge cost = Ok v -> v <= 0.
Proof.
  intros so g profiles stakes costs s0 w SO H SP SI ND V id p u (r & G & Gp) Eu Lu.
  destruct (visible_fine so SO g profiles stakes costs s0 H SP SI ND w V) as [S Ph Ro W _ _]. destruct (start_facts g profiles stakes costs s0 H SI ND) as (_ & (Rs & _) & _). assert (Er := es_rss _ _ _ _ (so_es _ _ _ _ S)).
  assert (Pp := ExactInv.pf_pp _ _ _ _ (proj1 (proj1 (es_heap _ _ _ _ (so_es _ _ _ _ S) r p Gp)))). rewrite <- Er, Eu in Pp. injection Pp as ->. destruct (W id r p G Gp) as [W1 W2].
  split; [destruct W1 as [W1|W1]; [exfalso; exact (Qclt_not_le _ _ W1 Lu) | exact W1]|].
  assert (Ng : ~ thrives s0 (p_owner p)) by (intros X; apply W2 in X; exact (Qclt_not_le _ _ X Lu)).
  destruct (Abstain.visible_ok so _ s0 w (Abstain.init_abstain _ _ _ _ _ H) V) as [K1 K2]. destruct (K1 r p Gp) as [K1' _].
  destruct (proj1 (proj2 (proj2 (so_full _ _ _ _ S)) id r) G) as (a & ag & st & Ga & Hs & J). destruct (proj2 (proj1 (so_full _ _ _ _ S)) _ _ Ga) as (_ & _ & I3 & _). destruct (I3 st Hs) as (_ & _ & ps & Fo & _). destruct (mine_get _ _ _ _ _ _ Fo J) as (q & Gq & _ & Oq). rewrite Gp in Gq. injection Gq as <-. rewrite Oq in *.
  exists ag. split; [exact Ga|]. destruct (K2 a ag Ga) as (_ & K3 & _). destruct (Ro a ag Ga) as [R1 R2]. destruct (a_profile ag) eqn:Ep; [exfalso; now apply Ng, R1 | | exfalso; now apply K1', K3]. split; [reflexivity|].
  intros n pledge cost v Hn Hp Hc Hv. apply Qcnot_lt_le. intros Pv. apply Ng, R2; [reflexivity|]. exists n, pledge, cost. rewrite <- Ph, <- Er. split; [exact Hn|]. split; [exact Hp|]. split; [exact Hc|]. rewrite potential_profit_ok in Hv by (rewrite Er; exact Rs). now injection Hv as ->.
Qed.

(** C88: whatever the activation order, a myopic agent that considers running pools proposes pools that could make a profit, if there is any number of pools from 1 to k with which it could. *)
Theorem C88_myopic_agents_propose_profitable_pools_if_they_can :
  forall so (g : args QcA) profiles (stakes costs : list Qc) (s0 : sim QcA) w a ag w' (u : Qc) op, set_order so -> init g profiles stakes costs = Ok s0 -> single_phase g -> sound_inputs g stakes -> ~ degenerate_cip50 g ->
  visible so s0 w -> get (w_agents w) a = Some ag -> a_profile ag = Myopic -> choose_pool_strategy so w ag = Ok (w', u, Some op) ->
  (exists n (pledge cost v : Qc), (1 <= n <= r_k (w_rss w))%Z /\ pledge_per_pool (A := QcA) (a_stake ag) (r_thr (w_rss w)) n = Ok pledge /\ cost_per_pool (A := QcA) n (a_cost ag) (w_phi w) = Ok cost /\ potential_profit (A := QcA) (w_rss w) pledge cost = Ok v /\ 0 < v) ->
  forall id r, get (s_owned op) id = Some r -> exists p v, get (w_heap w') r = Some p /\ potential_profit (A := QcA) (w_rss w) (p_pledge p) (p_cost p) = Ok v /\ 0 < v.
Proof.
  intros so g profiles stakes costs s0 w a ag w' u op SO H SP SI ND V Ga My Hc (n & pl & co & v & Hn & Hp & Hco & Hv & Pv) id r J.
  assert (F := visible_fine so SO g profiles stakes costs s0 H SP SI ND w V). destruct (start_facts g profiles stakes costs s0 H SI ND) as (_ & (Rs & Rc & Rk & _) & _). assert (S := fn_st _ _ _ _ _ _ F). assert (Er := es_rss _ _ _ _ (so_es _ _ _ _ S)).
  destruct (so_ai _ _ _ _ S a ag Ga) as (A1 & A2 & _). assert (Np : a_profile ag <> Abstainer) by congruence. assert (Lu := A2 Np). assert (S1 := A1 Lu). destruct (a_strategy ag) as [st|] eqn:Hst; [|contradiction].
  destruct (proj2 (proj1 (so_full _ _ _ _ S)) _ _ Ga) as (Eid & Ps & I3 & _). destruct (I3 st Hst) as (N1 & _ & ps & _ & N2 & B2). destruct (proj1 (so_good _ _ _ _ S)) as [[Hh Ha] _]. destruct (Ha _ _ Ga) as (_ & _ & Ho & _). rewrite <- Eid in *.
  destruct (choice_pays so SO (Z.to_nat (r_k (w_rss (s_w s0)) + 1)) (w_rss (s_w s0)) Rs Rc Rk (le_n _) _ ag st Hst N2 B2 Np Ps Lu w w' u op (so_es _ _ _ _ S) (fine_worth _ _ _ _ _ w F) Hh) with (id := id) (r := r) as (p & Gp & Sd & Pp); [exact Ho | exact My | exact Hc | | exact J|].
  - exists n, pl, co. rewrite <- Er. split; [exact Hn|]. split; [exact Hp|]. split; [exact Hco|]. rewrite potential_profit_ok in Hv by (rewrite Er; exact Rs). now injection Hv as ->.
  - exists p, (p_pp p). split; [exact Gp|]. split; [|exact Pp]. rewrite Er. exact (ExactInv.pf_pp _ _ _ _ (proj1 Sd)).
Qed.

(** The runs of the refutation meet the hypotheses: their first step returns, their third raises KeyError. *)
Definition four_check (s : sim QcA) : bool := raises_KeyError s && match w_pools (s_w s) with (_, r) :: _ => match get (w_heap (s_w s)) r with Some _ => true | None => false end | [] => false end.
Lemma four_sim_check : match (let! s0 := init (four_args Simultaneous) four_profiles four_stakes four_costs in steps 2 s0) with Ok s => four_check s | Err _ => false end = true.
Proof. vm_compute. reflexivity. Qed.
Lemma four_semi_check : match (let! s0 := init (four_args Semisimultaneous) four_profiles four_stakes four_costs in steps 2 s0) with Ok s => four_check s | Err _ => false end = true.
Proof. vm_compute. reflexivity. Qed.
Example C66_C76_instance : forall o, simultaneous o -> exists s0 s, init (four_args o) four_profiles four_stakes four_costs = Ok s0 /\ single_phase (four_args o) /\ sound_inputs (four_args o) four_stakes /\ ~ degenerate_cip50 (four_args o) /\ ~ In Myopic four_profiles /\
  reach so_id s0 s /\ fair no_choice /\ set_order so_id /\ (exists s1, sim_step so_id no_choice s0 = Ok s1) /\ sim_step so_id no_choice s = Err KeyError /\ exists id p, active (s_w s) id p.
Proof.
  intros o Ho. assert (E : exists s0 s, init (four_args o) four_profiles four_stakes four_costs = Ok s0 /\ steps 2 s0 = Ok s /\ four_check s = true).
  { destruct Ho as [->| ->].
    - destruct (steps_check (init (four_args Simultaneous) four_profiles four_stakes four_costs) 2 four_check four_sim_check) as (s0 & s & H1 & H2 & H3). exists s0, s. split; [exact H1|]. split; [exact H2 | exact H3].
    - destruct (steps_check (init (four_args Semisimultaneous) four_profiles four_stakes four_costs) 2 four_check four_semi_check) as (s0 & s & H1 & H2 & H3). exists s0, s. split; [exact H1|]. split; [exact H2 | exact H3]. }
  destruct E as (s0 & s & E1 & E2 & E3). exists s0, s. split; [exact E1|]. split.
  { intros f J. unfold fields in J. cbn in J. repeat (destruct J as [<-|J]; [eexists; reflexivity|]). destruct J. }
  split; [split; [discriminate|]; split; [reflexivity|]; split; [cbn; intros x [<-|[<-|[<-|[<-|[]]]]]; reflexivity|]; split; cbn; intros x [<-|[]]; discriminate|].
  split; [intros [X _]; discriminate|]. split; [cbn; intros X; repeat (destruct X as [X|X]; [discriminate|]); exact X|]. split; [exact (steps_reach _ _ _ E2)|]. split; [exact fair_no_choice|]. split; [exact so_id_set_order|].
  split; [cbn [steps] in E2; apply bind_ok in E2 as (s1 & E2 & _); eauto|]. apply andb_prop in E3 as [E3 E4]. split; [unfold raises_KeyError in E3; destruct (sim_step so_id no_choice s) as [|[]]; [discriminate | reflexivity | discriminate ..]|].
  destruct (w_pools (s_w s)) as [|[id r] l] eqn:Ep; [discriminate|]. destruct (get (w_heap (s_w s)) r) as [p|] eqn:Gp; [|discriminate]. exists id, p, r. split; [rewrite Ep; cbn; now rewrite Nat.eqb_refl | exact Gp].
Qed.

(** Myopic and non-myopic agents together: after one round there is a public pool of a myopic agent, and that agent considers pools again. *)
Definition mixed_profiles := [Myopic; NonMyopic; Myopic; NonMyopic].
Definition mixed_check (s : sim QcA) : bool :=
  match w_pools (s_w s) with (_, r) :: _ => match get (w_heap (s_w s)) r with Some p => negb (p_private p) && Nat.eqb (p_owner p) 0 | None => false end | [] => false end &&
  match get (w_agents (s_w s)) 0 with
  | Some ag => match a_profile ag with Myopic => true | _ => false end && match choose_pool_strategy so_id (s_w s) ag with Ok (_, _, Some op) => match s_owned op with (_, _) :: _ => true | [] => false end | _ => false end &&
      match pledge_per_pool (A := QcA) (a_stake ag) (r_thr (w_rss (s_w s))) 1, cost_per_pool (A := QcA) 1 (a_cost ag) (w_phi (s_w s)) with Ok pl, Ok co => match potential_profit (A := QcA) (w_rss (s_w s)) pl co with Ok v => ltb (a := QcA) 0%Qc v | Err _ => false end | _, _ => false end && Z.leb 1 (r_k (w_rss (s_w s)))
  | None => false end.
Lemma mixed_run : match (let! s0 := init (four_args Simultaneous) mixed_profiles four_stakes four_costs in steps 1 s0) with Ok s => mixed_check s | Err _ => false end = true.
Proof. vm_compute. reflexivity. Qed.
Example C88_instance : exists s0 s, init (four_args Simultaneous) mixed_profiles four_stakes four_costs = Ok s0 /\ single_phase (four_args Simultaneous) /\ sound_inputs (four_args Simultaneous) four_stakes /\ ~ degenerate_cip50 (four_args Simultaneous) /\ visible so_id s0 (s_w s) /\ set_order so_id /\
  (exists id p, active (s_w s) id p /\ p_private p = false) /\
  exists ag w' u op, get (w_agents (s_w s)) 0%nat = Some ag /\ a_profile ag = Myopic /\ choose_pool_strategy so_id (s_w s) ag = Ok (w', u, Some op) /\ (exists id r, get (s_owned op) id = Some r) /\
  exists n (pledge cost v : Qc), (1 <= n <= r_k (w_rss (s_w s)))%Z /\ pledge_per_pool (A := QcA) (a_stake ag) (r_thr (w_rss (s_w s))) n = Ok pledge /\ cost_per_pool (A := QcA) n (a_cost ag) (w_phi (s_w s)) = Ok cost /\ potential_profit (A := QcA) (w_rss (s_w s)) pledge cost = Ok v /\ 0 < v.
Proof.
  destruct (steps_check (init (four_args Simultaneous) mixed_profiles four_stakes four_costs) 1 mixed_check mixed_run) as (s0 & s & E1 & E2 & C). exists s0, s. split; [exact E1|]. split.
  { intros f J. unfold fields in J. cbn in J. repeat (destruct J as [<-|J]; [eexists; reflexivity|]). destruct J. }
  split; [split; [discriminate|]; split; [reflexivity|]; split; [cbn; intros x [<-|[<-|[<-|[<-|[]]]]]; reflexivity|]; split; cbn; intros x [<-|[]]; discriminate|].
  split; [intros [X _]; discriminate|]. split; [apply vis_between; exact (steps_reach _ _ _ E2)|]. split; [exact so_id_set_order|]. clear E1 E2. unfold mixed_check in C. apply andb_prop in C as [C1 C2]. split.
  - destruct (w_pools (s_w s)) as [|[id r] l] eqn:Ep; [discriminate|]. destruct (get (w_heap (s_w s)) r) as [p|] eqn:Gp; [|discriminate]. apply andb_prop in C1 as [C1 _]. apply negb_true_iff in C1. exists id, p. split; [|exact C1]. exists r. split; [rewrite Ep; cbn; now rewrite Nat.eqb_refl | exact Gp].
  - destruct (get (w_agents (s_w s)) 0%nat) as [ag|]; [|discriminate]. apply andb_prop in C2 as [C2 C3]. apply andb_prop in C2 as [C2 C4]. apply andb_prop in C2 as [C2 C5]. destruct (choose_pool_strategy so_id (s_w s) ag) as [[[w' u] [op|]]|] eqn:Ec; try discriminate.
    exists ag, w', u, op. split; [reflexivity|]. split; [destruct (a_profile ag); [discriminate | reflexivity | discriminate]|]. split; [exact Ec|]. split; [destruct (s_owned op) as [|[id r] l]; [discriminate|]; exists id, r; cbn; now rewrite Nat.eqb_refl|].
    exists 1%Z. destruct (pledge_per_pool (A := QcA) (a_stake ag) (r_thr (w_rss (s_w s))) 1) as [pl|]; [|discriminate]. destruct (cost_per_pool (A := QcA) 1 (a_cost ag) (w_phi (s_w s))) as [co|]; [|discriminate]. destruct (potential_profit (A := QcA) (w_rss (s_w s)) pl co) as [v|] eqn:Ev; [|discriminate].
    exists pl, co, v. apply Z.leb_le in C3. split; [lia|]. split; [reflexivity|]. split; [reflexivity|]. split; [exact Ev|]. cbn [ltb QcA] in C4. destruct (Qc_ltb_spec 0 v); [assumption | discriminate].
Qed.
