(** C33: what happens between two phases. *)
From Coq Require Import ZArith QArith Qcanon List Bool Arith Lia Permutation Sorted.
From Verif Require Import Num Py QcTac Rewards RewardFacts SortedKeyList World Stakeholder Sched Sim Init Reach Spec ListFacts SLFacts Inv Eval Step SimInv PropState PropExact PropInit Demo Frame PropRun.
Import ListNotations.
Open Scope nat_scope.

(** the value listed for phase [n], if any: a parameter given as a list has one value per phase, and keeps its value after the last one *)
Definition listed {X} (p : pv X) (n : nat) : option X := match p with Multi l => nth_error l n | Single _ => None end.
Definition listed_or {X} (p : pv X) (n : nat) (old : X) : X := match listed p n with Some v => v | None => old end.

Section Settings.
  Context {A : Arith}.
  Notation num := (T A).
  Implicit Types s : sim A.
  Definition settings s := (s_n s, w_rss (s_w s), w_rel (s_w s), w_abs (s_w s), s_maxit s, w_phi (s_w s), (s_order s, w_simul (s_w s)), s_graphs s).
  Definition here (f : pv (setting A)) (n : nat) : list (setting A) := match listed f n with Some v => [v] | None => [] end.
  Notation ap := (foldM (fun s v => apply_setting v s)).

  Lemma listed_map {X} (c : X -> setting A) p n : here (pv_map c p) n = match listed p n with Some v => [c v] | None => [] end.
  Proof. unfold here, listed. destruct p as [x|l]; cbn; [reflexivity|]. destruct (nth_error l n) eqn:E; [erewrite map_nth_error by eassumption; reflexivity|]. apply nth_error_None in E. destruct (nth_error (map c l) n) eqn:E2; [|reflexivity]. exfalso. assert (H : n < length (map c l)) by (apply nth_error_Some; congruence). rewrite map_length in H. lia. Qed.

  Ltac one_field := intros s s' H; rewrite listed_map in H; unfold listed_or; destruct (listed _ _); cbn in H; [|injection H as <-; unfold settings; auto]; inv_all; try (injection H as <-); subst; reflexivity.
  Lemma here_n p n : forall s s', ap (here (pv_map (SetN (A := A)) p) n) s = Ok s' -> let '(a, b, c, d, e, f, g, h) := settings s in settings s' = (listed_or p n a, b, c, d, e, f, g, h).
  Proof. one_field. Qed.
  Lemma here_a0 p n : forall s s', ap (here (pv_map (SetA0 (A := A)) p) n) s = Ok s' -> let '(a, b, c, d, e, f, g, h) := settings s in settings s' = (a, set_a0 b (listed_or p n (r_a0 b)), c, d, e, f, g, h).
  Proof.
    intros s s' H; rewrite listed_map in H; unfold listed_or; destruct (listed _ _); cbn in H; [injection H as <-; reflexivity|]. injection H as <-. unfold settings. destruct (w_rss (s_w s)). reflexivity.
  Qed.
  Lemma here_rel p n : forall s s', ap (here (pv_map (SetRel (A := A)) p) n) s = Ok s' -> let '(a, b, c, d, e, f, g, h) := settings s in settings s' = (a, b, listed_or p n c, d, e, f, g, h).
  Proof. one_field. Qed.
  Lemma here_abs p n : forall s s', ap (here (pv_map (SetAbs (A := A)) p) n) s = Ok s' -> let '(a, b, c, d, e, f, g, h) := settings s in settings s' = (a, b, c, listed_or p n d, e, f, g, h).
  Proof. one_field. Qed.
  Lemma here_maxit p n : forall s s', ap (here (pv_map (SetMaxIter (A := A)) p) n) s = Ok s' -> let '(a, b, c, d, e, f, g, h) := settings s in settings s' = (a, b, c, d, listed_or p n e, f, g, h).
  Proof. one_field. Qed.
  Lemma here_phi p n : forall s s', ap (here (pv_map (SetPhi (A := A)) p) n) s = Ok s' -> let '(a, b, c, d, e, f, g, h) := settings s in settings s' = (a, b, c, d, e, listed_or p n f, g, h).
  Proof. one_field. Qed.
  Lemma here_order p n : forall s s', ap (here (pv_map (SetOrder (A := A)) p) n) s = Ok s' -> let '(a, b, c, d, e, f, g, h) := settings s in
    settings s' = (a, b, c, d, e, f, match listed p n with Some o => (o, is_simul o) | None => g end, h).
  Proof. one_field. Qed.
  Lemma here_graphs p n : forall s s', ap (here (pv_map (SetGraphs (A := A)) p) n) s = Ok s' -> let '(a, b, c, d, e, f, g, h) := settings s in settings s' = (a, b, c, d, e, f, g, listed_or p n h).
  Proof. one_field. Qed.
  Lemma here_k p n : forall s s', ap (here (pv_map (SetK (A := A)) p) n) s = Ok s' -> let '(a, b, c, d, e, f, g, h) := settings s in
    exists b', match listed p n with Some k => set_k b k = Ok b' | None => b' = b end /\ settings s' = (a, b', c, d, e, f, g, h).
  Proof.
    intros s s' H; rewrite listed_map in H; destruct (listed _ _); cbn in H; [|injection H as <-; unfold settings; eauto]. inv_all. subst. eexists. split; [eassumption | reflexivity].
  Qed.
  Lemma fields_settings g n s s' : ap (flat_map (fun f => here f n) (fields g)) s = Ok s' ->
    let '(a, b, c, d, e, f, o, h) := settings s in exists b', match listed (g_k g) n with Some k => set_k b k = Ok b' | None => b' = b end /\
    settings s' = (listed_or (g_n g) n a, set_a0 b' (listed_or (g_a0 g) n (r_a0 b')), listed_or (g_rel g) n c, listed_or (g_abs g) n d, listed_or (g_maxit g) n e, listed_or (g_phi g) n f,
                   match listed (g_order g) n with Some o' => (o', is_simul o') | None => o end, listed_or (g_graphs g) n h).
  Proof.
    unfold fields. cbn [flat_map]. rewrite app_nil_r. intros H. destruct (settings s) as [[[[[[[a b] c] d] e] f] o] h] eqn:E0.
    rewrite foldM_app in H. apply bind_ok in H as (s1 & H1 & H). apply here_n in H1. rewrite E0 in H1.
    rewrite foldM_app in H. apply bind_ok in H as (s2 & H2 & H). apply here_k in H2. rewrite H1 in H2. destruct H2 as (b' & Hb & H2). exists b'. split; [exact Hb|].
    rewrite foldM_app in H. apply bind_ok in H as (s3 & H3 & H). apply here_a0 in H3. rewrite H2 in H3.
    rewrite foldM_app in H. apply bind_ok in H as (s4 & H4 & H). apply here_rel in H4. rewrite H3 in H4.
    rewrite foldM_app in H. apply bind_ok in H as (s5 & H5 & H). apply here_abs in H5. rewrite H4 in H5.
    rewrite foldM_app in H. apply bind_ok in H as (s6 & H6 & H). apply here_maxit in H6. rewrite H5 in H6.
    rewrite foldM_app in H. apply bind_ok in H as (s7 & H7 & H). apply here_phi in H7. rewrite H6 in H7.
    rewrite foldM_app in H. apply bind_ok in H as (s8 & H8 & H). apply here_order in H8. rewrite H7 in H8.
    apply here_graphs in H. rewrite H8 in H. exact H.
  Qed.

  (** the lists of phase values are those given to the constructor *)
  Lemma set_fields_multi fs : forall s s', foldM set_field fs s = Ok s' -> c_multi (s_c s') = c_multi (s_c s) ++ flat_map (fun f => match f with Multi l => [l] | Single _ => [] end) fs.
  Proof.
    induction fs as [|f fs IH]; intros s s' H; cbn -[set_field] in H; [injection H as <-; now rewrite app_nil_r|]. apply bind_ok in H as (s1 & H1 & H). apply IH in H. rewrite H. cbn.
    apply set_field_shape in H1 as (_ & _ & [(E & _ & v & ->)|(l & -> & E & _)]); rewrite E; [reflexivity|]. now rewrite <- app_assoc.
  Qed.
  Lemma init_multi g profiles stakes costs s0 : init g profiles stakes costs = Ok s0 -> c_multi (s_c s0) = flat_map (fun f => match f with Multi l => [l] | Single _ => [] end) (fields g).
  Proof.
    unfold init. intros H. apply bind_ok in H as (r0 & _ & H). apply bind_ok in H as (s1 & H1 & H). apply set_fields_multi in H1. cbn [blank s_c c_multi app] in H1.
    apply bind_ok in H as (r1 & _ & H). apply bind_ok in H as (ags & _ & H). apply bind_ok in H as (total & _ & H). destruct (leb total zero); [discriminate|]. apply bind_ok in H as ([ags' total'] & _ & H).
    assert (E : forall X (x y : X), Ok x = Ok y -> x = y) by (intros X x y [= ->]; reflexivity). apply E in H. subst s0. cbn. exact H1.
  Qed.
  Lemma phase_settings_here n fs : phase_settings n (flat_map (fun f : pv (setting A) => match f with Multi l => [l] | Single _ => [] end) fs) = flat_map (fun f => here f n) fs.
  Proof. unfold phase_settings, here, listed. induction fs as [|[x|l] fs IH]; cbn; [reflexivity | exact IH |]. now rewrite IH. Qed.
End Settings.

Section Change.
  Context {A : Arith}.
  Variable so : list nat -> list nat -> list nat.
  Implicit Types s : sim A.
  Lemma reach_conf s0 s : reach so s0 s -> s_c s = s_c s0.
  Proof. induction 1 as [|ch s s' R IH H]; [reflexivity|]. apply step_shape in H as (E & _). congruence. Qed.
  (** the settings of a state do not depend on anything but its parameters *)
  Lemma settings_calm s w : params w = params (s_w s) -> settings (set_w w s) = settings s.
  Proof. unfold params, settings. cbn. now intros [= -> -> -> -> -> _]. Qed.
  Lemma apply_total (v : setting A) s s' : apply_setting v s = Ok s' -> w_total (s_w s') = w_total (s_w s).
  Proof. destruct v; cbn; intros H; inv_all; try (injection H as <-); subst; reflexivity. Qed.
  Lemma applies_total : forall vs s s', foldM (fun s (v : setting A) => apply_setting v s) vs s = Ok s' -> w_total (s_w s') = w_total (s_w s).
  Proof. induction vs as [|v vs IH]; intros s s' H; cbn in H; [now injection H as <-|]. apply bind_ok in H as (s1 & H1 & H). rewrite (IH _ _ H). eapply apply_total; eassumption. Qed.
  Lemma change_settings s s' : change_phase s = Ok s' -> exists s1, settings s1 = settings s /\ w_total (s_w s1) = w_total (s_w s) /\ w_total (s_w s') = w_total (s_w s) /\
    exists s2, foldM (fun s v => apply_setting v s) (phase_settings (S (s_phase s)) (c_multi (s_c s))) s1 = Ok s2 /\ settings s' = settings s2.
  Proof.
    unfold change_phase. intros H. apply bind_ok in H as (w1 & H1 & H). cbn [s_w set_phase s_phase s_c] in H1, H. apply bind_ok in H as (s2 & H2 & H). apply bind_ok in H as (w2 & H3 & H). injection H as <-.
    apply (rel_foldM calm calm_refl calm_trans (fun w => w)) in H1; [|intros; eapply unrank_frame; eassumption].
    apply (rel_foldM calm calm_refl calm_trans (fun w => w)) in H3; [|intros; eapply rerank_frame; eassumption].
    exists (set_w w1 (set_phase (S (s_phase s)) s)). split; [apply (settings_calm (set_phase (S (s_phase s)) s)), H1|]. cbn [s_w set_w].
    assert (T1 : w_total w1 = w_total (s_w s)) by (destruct H1 as [H1 _]; unfold params in H1; congruence). split; [exact T1|]. split.
    - assert (T2 := applies_total _ _ _ H2). cbn in T2. assert (T3 : w_total w2 = w_total (s_w s2)) by (destruct H3 as [H3 _]; unfold params in H3; congruence).
      destruct (phase_settings _ _); cbn; congruence.
    - exists s2. split; [exact H2|]. assert (E := settings_calm s2 w2 (proj1 H3)). destruct (phase_settings _ _); exact E.
  Qed.
End Change.

(** * C33 *)
(** when a round ends with a change of phase, the parameters listed for the new phase are in force, and all the others keep their values *)
Theorem C33_applies_the_listed_parameters : forall (A : Arith) so g profiles stakes costs (s0 s s' : sim A) ch, init g profiles stakes costs = Ok s0 -> reach so s0 s -> sim_step so ch s = Ok s' ->
  s_phase s' <> s_phase s -> let n := S (s_phase s) in let old := s_w s in let new := s_w s' in
  s_phase s' = n /\
  s_n s' = listed_or (g_n g) n (s_n s) /\ s_maxit s' = listed_or (g_maxit g) n (s_maxit s) /\ s_graphs s' = listed_or (g_graphs g) n (s_graphs s) /\
  w_rel new = listed_or (g_rel g) n (w_rel old) /\ w_abs new = listed_or (g_abs g) n (w_abs old) /\ w_phi new = listed_or (g_phi g) n (w_phi old) /\
  r_a0 (w_rss new) = listed_or (g_a0 g) n (r_a0 (w_rss old)) /\
  match listed (g_k g) n with
  | Some k => eqb k zero = false /\ r_k (w_rss new) = trunc k /\ r_thr (w_rss new) = div one k
  | None => r_k (w_rss new) = r_k (w_rss old) /\ r_thr (w_rss new) = r_thr (w_rss old)
  end /\
  match listed (g_order g) n with
  | Some o => s_order s' = o /\ w_simul new = is_simul o
  | None => s_order s' = s_order s /\ w_simul new = w_simul old
  end /\
  r_scheme (w_rss new) = r_scheme (w_rss old) /\ w_total new = w_total old /\ s_c s' = s_c s /\ s_steps s' = S (s_steps s) /\ s_running s' = s_running s /\ s_out s' = s_out s.
Proof.
  intros A so g profiles stakes costs s0 s s' ch H0 R H Np n old new. assert (SH := step_shape so ch s s' H). destruct SH as (Ec & _ & _ & SH).
  apply sim_step_cases in H as [(L & ->)|(L & w & Hw & H)]; [contradiction|].
  assert (K : exists s4, change_phase (noted s w) = Ok s4 /\ s' = idle_again s4).
  { destruct H as [(_ & ->)|[(_ & _ & ->)|[(_ & _ & _ & s4 & H4 & ->)|(_ & _ & _ & ->)]]]; try contradiction. eauto. }
  clear H. destruct K as (s4 & H4 & E'). unfold schedule_step in Hw. apply bind_ok in Hw as (evs & _ & Hw). apply events_frame in Hw as (Pw & _).
  assert (Sw : settings (noted s w) = settings s) by (unfold params in Pw; unfold settings; cbn; congruence).
  apply change_settings in H4 as (s1 & E1 & T1 & T4 & s2 & H2 & E4). cbn [s_phase noted set_eq counted set_cons after_round set_steps set_w collected set_rows s_c] in H2.
  rewrite (reach_conf so _ _ R), (init_multi _ _ _ _ _ H0), phase_settings_here in H2. apply fields_settings in H2. rewrite E1, Sw in H2. unfold settings in H2 at 1.
  destruct H2 as (b & Hb & H2). rewrite <- E4 in H2. assert (E5 : settings s' = settings s4) by (subst s'; reflexivity). rewrite <- E5 in H2. clear E4 E5.
  assert (Tt : w_total new = w_total old). { unfold new, old. subst s'. cbn. rewrite T4. cbn. unfold params in Pw. congruence. }
  assert (Hst : s_phase s' = n /\ s_steps s' = S (s_steps s) /\ s_running s' = s_running s /\ s_out s' = s_out s) by (unfold n; decompose [and or] SH; try contradiction; auto).
  destruct Hst as (X1 & X2 & X3 & X4). clear SH. fold n in H2. fold n in Hb. unfold settings in H2. fold new in H2. injection H2 as F1 F2 F3 F4 F5 F6 F7 F8. fold old in Hb, F2, F3, F4, F6, F7.
  assert (Q : r_a0 b = r_a0 (w_rss old) /\ r_scheme b = r_scheme (w_rss old) /\ match listed (g_k g) n with Some k => eqb k zero = false /\ r_k b = trunc k /\ r_thr b = div one k | None => r_k b = r_k (w_rss old) /\ r_thr b = r_thr (w_rss old) end).
  { destruct (listed (g_k g) n) as [k|]; [|subst b; auto]. unfold set_k in Hb. destruct (eqb k zero) eqn:Ez; [discriminate|]. unfold pdiv in Hb. rewrite Ez in Hb. injection Hb as <-. cbn. auto. }
  destruct Q as (Q1 & Q2 & Q3). rewrite F2. cbn [set_a0 r_a0 r_k r_thr r_scheme]. rewrite Q1, Q2.
  repeat (split; [assumption|]). split; [reflexivity|]. split; [exact Q3|]. split; [destruct (listed (g_order g) n); injection F7 as -> ->; auto|]. auto 10.
Qed.

(** a change of phase touches nothing of a pool but its profit and desirability, which are those of the new scheme; agents are untouched; the rankings stay complete and sorted.
    [w1] is the state at the end of the round, before the change. *)
Theorem C33_pools_are_repriced : forall (A : Arith), OrdLaws A -> ltb (zero (a := A)) min_stake_unit = true ->
  forall so g profiles stakes costs (s0 s s' : sim A) ch, set_order so -> init g profiles stakes costs = Ok s0 -> one_at_a_time g -> reach so s0 s -> sim_step so ch s = Ok s' ->
  s_phase s' <> s_phase s -> exists w1, schedule_step so (c_sched (s_c s)) ch (s_w s) = Ok w1 /\ let new := s_w s' in
  w_agents new = w_agents w1 /\ keys (w_pools new) = keys (w_pools w1) /\
  (forall id p, active w1 id p -> exists p', active new id p' /\
     p_id p' = p_id p /\ p_owner p' = p_owner p /\ p_cost p' = p_cost p /\ p_pledge p' = p_pledge p /\ p_stake p' = p_stake p /\ p_margin p' = p_margin p /\
     p_delegators p' = p_delegators p /\ p_private p' = p_private p /\
     potential_profit (w_rss new) (p_pledge p') (p_cost p') = Ok (p_pp p') /\ p_des p' = desirability (p_margin p') (p_pp p')) /\
  let m := Z.to_nat (r_k (w_rss (s_w s0)) + 1) in
  complete_and_sorted new m (fun p => Ok (opp (p_des p), opp (p_pp p), Z.of_nat (p_id p))) (sl_elems (w_rank new)) /\
  complete_and_sorted new m (fun p => let! cp := current_profit (w_rss new) (p_stake p) (p_pledge p) (p_cost p) in
                                      Ok (opp (desirability (p_margin p) cp), zero, Z.of_nat (p_id p))) (sl_elems (w_rankm new)).
Proof.
  intros A O MP so g profiles stakes costs s0 s s' ch SO H0 OT R H Np.
  assert (G := plain_reach O MP so SO _ _ _ _ _ _ H0 OT R). set (m := Z.to_nat _) in *.
  assert (V : visible so s0 (s_w s')) by (constructor; econstructor; eassumption).
  assert (RK := C13_rankings_complete_and_sorted A O MP so g profiles stakes costs s0 _ SO H0 OT V). cbv zeta in RK. fold m in RK.
  apply sim_step_cases in H as [(L & ->)|(L & w & Hw & H)]; [contradiction|].
  assert (K : exists s4, change_phase (noted s w) = Ok s4 /\ s' = idle_again s4).
  { destruct H as [(_ & ->)|[(_ & _ & ->)|[(_ & _ & _ & s4 & H4 & ->)|(_ & _ & _ & ->)]]]; try contradiction. eauto. }
  destruct K as (s4 & H4 & E'). exists w. split; [exact Hw|]. intros new.
  assert (Gw : plain_good m w).
  { unfold schedule_step in Hw. apply bind_ok in Hw as (evs & Hev & Hw). assert (S : only_steps evs) by (eapply round_only_steps; [apply G | exact Hev]).
    destruct (scan_ok O MP so SO m evs (s_w s) w S (proj1 (sg_ok _ _ _ _ _ _ _ _ _ G)) Hw) as (_ & _ & _ & D & _). exact D. }
  assert (G3 : simgood (fun (_ : rss A) (_ : pool A) => True) False (fun (_ : rss A) (_ : T A) => True) (fun _ => True) (fun _ => True) True m (fun _ => True) (noted s w)).
  { destruct G. constructor; try assumption. split; [exact Gw|]. split; exact I. }
  destruct (change_phase_repriced O (fun (_ : rss A) (_ : pool A) => True) False (fun (_ : rss A) (_ : T A) => True) (fun _ => True) (fun _ => True) True) with (m := m) (X := fun _ : world A => True) (s := noted s w) (s' := s4) as (_ & _ & Q); auto.
  destruct Q as (Q1 & Q2 & _ & _ & _ & _ & Q3). cbn [s_w noted set_eq counted set_cons after_round set_steps set_w] in Q1, Q2, Q3. subst s'. unfold new. cbn [s_w idle_again set_w with_idle w_agents w_pools].
  split; [exact Q1|]. split; [now rewrite Q2|]. split; [|exact RK].
  intros id p (r & J1 & J2). destruct (Q3 id r J1) as (q & p' & Jq & J3 & J4). rewrite J2 in Jq. injection Jq as <-. exists p'. split; [exists r; cbn; rewrite Q2; now split|].
  apply reprice_fields in J4. decompose [and] J4. change (w_rss (with_idle true (s_w s4))) with (w_rss (s_w s4)). repeat (split; [congruence|]). congruence.
Qed.

(** The run cannot always go on: the rankings keep the number of placeholders chosen for the first k, so after k grows an agent that looks for the k-th pool runs off the end. *)
Theorem C33_run_can_go_on_refuted : exists (g : args QcA) profiles stakes costs (s0 s1 s : sim QcA), init g profiles stakes costs = Ok s0 /\ one_at_a_time g /\
  reach so_id s0 s1 /\ sim_step so_id no_choice s1 = Ok s /\ s_phase s1 = 0 /\ s_phase s = 1 /\ s_running s = true /\ (Z.of_nat (s_steps s) < s_maxit s)%Z /\
  sim_step so_id no_choice s = Err IndexError.
Proof.
  exists (demo_args Sequential (Multi [Q2Qc 2; Q2Qc 5])), demo_profiles, demo_stakes, demo_costs.
  destruct (steps_check (init (demo_args Sequential (Multi [Q2Qc 2; Q2Qc 5])) demo_profiles demo_stakes demo_costs) 3 (fun s1 => Nat.eqb (s_phase s1) 0 &&
    match sim_step so_id no_choice s1 with Ok s => Nat.eqb (s_phase s) 1 && s_running s && (Z.of_nat (s_steps s) <? s_maxit s)%Z && match sim_step so_id no_choice s with Err IndexError => true | _ => false end
    | Err _ => false end)) as (s0 & s1 & H0 & R & H); [vm_compute; reflexivity|].
  cbv beta in H. apply andb_true_iff in H as [H1 H]. destruct (sim_step so_id no_choice s1) as [s|] eqn:E1; [|discriminate].
  apply andb_true_iff in H as [H H5]. apply andb_true_iff in H as [H H4]. apply andb_true_iff in H as [H2 H3].
  exists s0, s1, s. split; [exact H0|]. split; [constructor; [now right | constructor]|]. split; [eapply steps_reach; exact R|]. split; [exact E1|]. split; [now apply Nat.eqb_eq|]. split; [now apply Nat.eqb_eq|].
  split; [exact H3|]. split; [now apply Z.ltb_lt|]. destruct (sim_step so_id no_choice s) as [|[]]; try discriminate. reflexivity.
Qed.

(** The theorems above apply to the run of PropRun.late_args: with three pools in place, a0 changes from 3/10 to 3 and nothing else does. *)
Example C33_instance : exists s0 s s', init late_args demo_profiles demo_stakes demo_costs = Ok s0 /\ one_at_a_time late_args /\ reach so_id s0 s /\ sim_step so_id no_choice s = Ok s' /\
  s_phase s = 0 /\ s_phase s' = 1 /\ r_a0 (w_rss (s_w s)) = Q2Qc (3#10) /\ r_a0 (w_rss (s_w s')) = Q2Qc 3 /\ length (w_pools (s_w s')) = 3.
Proof.
  destruct (steps_check (init late_args demo_profiles demo_stakes demo_costs) 3 (fun s => Nat.eqb (s_phase s) 0 && Qc_eqb (r_a0 (w_rss (s_w s))) (Q2Qc (3#10)) &&
    match sim_step so_id no_choice s with Ok s' => Nat.eqb (s_phase s') 1 && Qc_eqb (r_a0 (w_rss (s_w s'))) (Q2Qc 3) && Nat.eqb (length (w_pools (s_w s'))) 3 | Err _ => false end)) as (s0 & s & H0 & R & H); [vm_compute; reflexivity|].
  cbv beta in H. apply andb_true_iff in H as [H H3]. apply andb_true_iff in H as [H1 H2]. destruct (sim_step so_id no_choice s) as [s'|] eqn:E1; [|discriminate].
  apply andb_true_iff in H3 as [H3 H5]. apply andb_true_iff in H3 as [H3 H4].
  exists s0, s, s'. split; [exact H0|]. split; [constructor; [now right | constructor]|]. split; [eapply steps_reach; exact R|]. split; [exact E1|]. split; [now apply Nat.eqb_eq|]. split; [now apply Nat.eqb_eq|].
  split; [now apply Qc_eqb_eq|]. split; [now apply Qc_eqb_eq|]. now apply Nat.eqb_eq.
Qed.
