(** The web interface (C79): which pages it shows, and which positions of the sliders and which messages make it fail. *)
From Coq Require Import ZArith QArith Qcanon List Bool String Lia.
From Verif Require Import Num Py QcTac Rewards RewardFacts PropRewards SortedKeyList World Stakeholder Helper Sched Sim Init Reporters Export Main ListFacts PropMove Reach Inv Exec Step SimInv PropInit PropTotal PropMain Viz.
Import ListNotations.
Open Scope Qc_scope.

(** * Vocabulary *)
(** what the sliders allow *)
Definition on_sliders (v : settings QcA) : Prop :=
  (10 <= v_n v <= 1000)%Z /\ (1 <= v_k v <= 100)%Z /\ 0 <= v_a0 v /\ v_a0 v <= 1 /\ 0 < v_cmin v /\ 0 < v_cmax v /\ 0 <= v_inactive v /\ v_inactive v <= 1 /\ 0 <= v_phi v /\ v_phi v <= 1.
(** ... and what a simulation can be made of *)
Definition usable (v : settings QcA) : Prop := v_cmin v <= v_cmax v /\ v_inactive v < 1.
(** the states of the server: after its start and any messages that it has answered *)
Inductive serving (resets : bool) (e : env QcA) : server QcA -> Prop :=
| serving_start sv : reset_model e default_settings = Ok sv -> serving resets e sv
| serving_next sv m sv' r : serving resets e sv -> on_message resets e m sv = Ok (sv', r) -> serving resets e sv'.

(** * Sliders *)
Lemma clamp_range (lo hi x : Qc) : lo <= hi -> lo <= clamp (A := QcA) lo hi x /\ clamp (A := QcA) lo hi x <= hi.
Proof.
  intros L. unfold clamp. change (ltb (a := QcA)) with Qc_ltb. destruct (Qc_ltb_spec x lo); [split; [apply Qcle_refl | assumption]|]. destruct (Qc_ltb_spec hi x); [split; [assumption | apply Qcle_refl]|]. split; now apply Qcnot_lt_le.
Qed.
Lemma clampZ_range lo hi x : (lo <= hi)%Z -> (lo <= clampZ lo hi x <= hi)%Z.
Proof. intros L. unfold clampZ. destruct (Z.ltb_spec x lo); [lia|]. destruct (Z.ltb_spec hi x); lia. Qed.
Lemma default_on_sliders : on_sliders default_settings.
Proof. unfold on_sliders. cbn [default_settings v_n v_k v_a0 v_cmin v_cmax v_inactive v_phi]. repeat split; try lia; try discriminate; reflexivity. Qed.
Lemma default_usable : usable default_settings.
Proof. split; [discriminate | reflexivity]. Qed.
Lemma submit_on_sliders c v : on_sliders v -> on_sliders (submit c v).
Proof.
  destruct v as [n k a0 cmin cmax seed f phi]. unfold on_sliders. cbn [v_n v_k v_a0 v_cmin v_cmax v_inactive v_phi]. intros (N & K & A1 & A2 & C1 & C2 & F1 & F2 & P1 & P2).
  assert (Z1 : forall x : Qc, 0 <= clamp (A := QcA) zero one x /\ clamp (A := QcA) zero one x <= 1) by (intros x; apply (clamp_range 0 1); discriminate).
  destruct c; cbn [submit v_n v_k v_a0 v_cmin v_cmax v_inactive v_phi].
  - repeat (split; [first [assumption | apply clampZ_range; lia]|]). assumption.
  - repeat (split; [first [assumption | apply clampZ_range; lia]|]). assumption.
  - destruct (Z1 x). tauto.
  - assert (L : 0 < clamp (A := QcA) (milli 1) (milli 50) x) by (apply Qclt_le_trans with (milli (A := QcA) 1); [reflexivity | apply (clamp_range (milli (A := QcA) 1) (milli (A := QcA) 50)); discriminate]). tauto.
  - assert (L : 0 < clamp (A := QcA) (milli 2) (milli 100) x) by (apply Qclt_le_trans with (milli (A := QcA) 2); [reflexivity | apply (clamp_range (milli (A := QcA) 2) (milli (A := QcA) 100)); discriminate]). tauto.
  - tauto.
  - destruct (Z1 x). tauto.
  - destruct (Z1 x). tauto.
Qed.

(** * Making a model *)
Lemma arguments_shape v : on_sliders v -> shape (arguments v) (v_n v) 1000.
Proof.
  intros (N & K & A1 & _ & _ & _ & F1 & _). constructor; cbn [arguments ac_args ac_pareto ac_weights ac_metrics g_n g_maxit g_k g_a0 g_scheme g_inactive phase_values]; try reflexivity; try lia; try assumption.
  - intros f J. cbn in J. destruct J as [<-|[<-|[<-|[<-|[<-|[<-|[<-|[<-|[<-|[]]]]]]]]]]; discriminate.
  - intros x [<-|[]]. change 1 with (Qc_ofZ 1). apply Qc_ofZ_le. lia.
  - intros x [<-|[]]. assumption.
  - intros x [<-|[<-|[<-|[]]]]; discriminate.
  - intros i J. cbn in J. intuition lia.
Qed.
Lemma arguments_runnable e v : on_sliders v -> usable v -> runnable e (arguments v).
Proof.
  intros S [U1 U2]. unfold runnable. cbn [arguments ac_args ac_cost_min ac_cost_max ac_weights ac_source g_scheme g_inactive]. split; [|split; [|split; [|split; [|split; [|split; [|split; [|split]]]]]]].
  - constructor; [now left | constructor].
  - discriminate.
  - exact U1.
  - exists 1. split; [now left | reflexivity].
  - exact U2.
  - discriminate.
  - discriminate.
  - intros [Q _]. discriminate.
  - apply single_relaxing. intros f J. cbn in J. destruct J as [<-|[<-|[<-|[<-|[<-|[<-|[<-|[<-|[<-|[]]]]]]]]]]; eexists; reflexivity.
Qed.

Lemma reset_ok e v : contract e -> on_sliders v -> usable v -> exists profiles (stakes costs : list Qc) s0 d, construct e (Some (v_seed v)) (arguments v) = Ok (s0, d) /\ init (ac_args (arguments v)) profiles stakes costs = Ok s0 /\
  sound_inputs (ac_args (arguments v)) stakes /\ reset_model e v = Ok (mkServer v (v_seed v) (mkProgress s0 [] [])).
Proof.
  intros C S U. destruct (constructed e (Some (v_seed v)) (arguments v) (v_n v) 1000 C (arguments_shape v S) (arguments_runnable e v S U)) as (profiles & stakes & costs & s0 & d & E1 & E2 & E3).
  exists profiles, stakes, costs, s0, d. split; [exact E1|]. split; [exact E2|]. split; [exact E3|]. unfold reset_model. rewrite E1. reflexivity.
Qed.
Lemma reset_usable e v sv : on_sliders v -> reset_model e v = Ok sv -> usable v.
Proof.
  intros (_ & _ & _ & _ & _ & _ & _ & F2 & _) H. unfold reset_model in H. apply bind_ok in H as ([s0 d] & H & _). unfold construct in H. cbn [arguments ac_args g_n bind ac_source ac_pareto ac_cost_min ac_cost_max ac_weights] in H.
  apply bind_ok in H as (stakes & _ & H). apply bind_ok in H as (costs & H1 & H). apply bind_ok in H as (profiles & _ & H). apply bind_ok in H as (s & H2 & _). split.
  - unfold cost_distribution in H1. change (ltb (a := QcA)) with Qc_ltb in H1. destruct (Qc_ltb_spec (v_cmax v) (v_cmin v)); [discriminate | now apply Qcnot_lt_le].
  - apply init_inv in H2 as (_ & _ & _ & tot & _ & _ & _ & _ & _ & _ & Hd & _). cbn [g_inactive] in Hd. destruct (Qcle_lt_or_eq _ _ F2) as [L|E]; [exact L|]. exfalso. rewrite E in Hd. unfold pdiv in Hd. vm_compute in Hd. discriminate.
Qed.
Lemma fold_set_field_inactive (v v' : settings QcA) : v_n v' = v_n v -> v_k v' = v_k v -> v_a0 v' = v_a0 v -> v_phi v' = v_phi v -> fields (ac_args (arguments v')) = fields (ac_args (arguments v)).
Proof. intros E1 E2 E3 E4. cbn. now rewrite E1, E2, E3, E4. Qed.
Lemma reset_all_inactive e v : contract e -> on_sliders v -> v_cmin v <= v_cmax v -> v_inactive v = 1 -> reset_model e v = Err ZeroDivisionError.
Proof.
  intros C S L F. set (v' := mkSettings (A := QcA) (v_n v) (v_k v) (v_a0 v) (v_cmin v) (v_cmax v) (v_seed v) 0 (v_phi v)).
  assert (S' : on_sliders v'). { destruct S as (S1 & S2 & S3 & S4 & S5 & S6 & S7 & S8 & S9 & S10). unfold on_sliders, v'. cbn [v_n v_k v_a0 v_cmin v_cmax v_inactive v_phi]. repeat (split; [first [assumption | discriminate]|]). assumption. }
  destruct (reset_ok e v' C S') as (_ & _ & _ & s0 & d & E & _); [split; [exact L | reflexivity]|].
  unfold reset_model. unfold construct in E |- *. change (used_seed e (arguments v')) with (used_seed e (arguments v)) in E. change (v_seed v') with (v_seed v) in E.
  cbn [arguments ac_args g_n bind ac_source ac_pareto ac_cost_min ac_cost_max ac_weights v_n v_cmin v_cmax] in E |- *.
  change (v_n v') with (v_n v) in E. change (v_cmin v') with (v_cmin v) in E. change (v_cmax v') with (v_cmax v) in E.
  apply bind_ok in E as (stakes & E1 & E). rewrite E1. cbn [bind]. apply bind_ok in E as (costs & E2 & E).  rewrite E2. cbn [bind]. apply bind_ok in E as (profiles & E3 & E). rewrite E3. cbn [bind]. apply bind_ok in E as (s & E4 & _).
  apply init_inv in E4 as (r0 & s1 & ags & tot & ags' & tot' & I1 & I2 & _ & I3 & _). unfold init. cbn [g_scheme g_known g_inactive] in *. rewrite I1. cbn [bind].
  assert (Ef : foldM set_field (fields (ac_args (arguments v))) (blank r0) = Ok s1) by (rewrite <- I2; reflexivity). cbn [arguments ac_args] in Ef. rewrite Ef. cbn [bind]. rewrite I3. cbn [bind]. rewrite F. reflexivity.
Qed.
Lemma reset_costs (e : env QcA) (v : settings QcA) : v_cmax v < v_cmin v -> reset_model e v = Err ValueError.
Proof.
  intros L. unfold reset_model, construct. cbn [arguments ac_args g_n bind ac_source ac_pareto ac_cost_min ac_cost_max stake_distribution]. unfold cost_distribution. change (ltb (a := QcA)) with Qc_ltb. destruct (Qc_ltb_spec (v_cmax v) (v_cmin v)); [reflexivity | contradiction].
Qed.

(** * The page *)
Lemma latest_pool_count rows v row : latest (A := QcA) (model_vars served_columns (rows ++ [v :: row])) "Pool count" = Some v.
Proof.
  unfold latest. change (model_vars served_columns (rows ++ [v :: row]) "Pool count") with (Some (flat_map (fun row : list (mvalue QcA) => match row with v :: _ => [v] | [] => [] end) (rows ++ [v :: row]))).
  rewrite flat_map_app. cbn [flat_map app]. match goal with |- context [?l ++ [v]] => generalize l as l0 end. intros [|x l]; [reflexivity|]. cbn [app]. now rewrite last_last.
Qed.
Lemma page_empty (sv : server QcA) : pg_rows (sv_progress sv) = [] -> page sv = Ok [ShowValues []; ShowKeys [] []; ShowCells []].
Proof. intros E. unfold page. rewrite E. reflexivity. Qed.
Lemma page_rows (sv : server QcA) rows v row : pg_rows (sv_progress sv) = rows ++ [v :: row] -> page sv = Ok [ShowValues [v]; ShowKeys [] []; ShowCells []].
Proof.
  intros E. unfold page, render_model. rewrite E. unfold render_line. cbn [flat_map]. rewrite latest_pool_count. reflexivity.
Qed.

(** * States of the server *)
Record ready (e : env QcA) (sv : server QcA) : Prop := mkReady {
  rd_sliders : on_sliders (sv_settings sv);
  rd_model : exists v profiles (stakes costs : list Qc) s0, v_seed v = sv_seed sv /\ on_sliders v /\ usable v /\ init (ac_args (arguments v)) profiles stakes costs = Ok s0 /\ sound_inputs (ac_args (arguments v)) stakes /\
    fits e s0 served_columns (sv_progress sv) /\ (s_running (sv_sim sv) = true -> s_out (sv_sim sv) = [])
}.
Lemma fresh_fits (e : env QcA) (s0 : sim QcA) (g : args QcA) profiles (stakes costs : list Qc) : init g profiles stakes costs = Ok s0 -> fits e s0 served_columns (mkProgress s0 [] []) /\ s_out s0 = [] /\ s_steps s0 = 0%nat /\ s_running s0 = true.
Proof.
  intros H. assert (FS := init_fresh _ _ _ _ _ H). destruct (fs_start _ _ _ _ _ FS) as (S1 & S2 & S3 & S4 & S5 & S6 & S7 & S8 & S9). split; [|auto].
  split; [constructor|]. cbn. split; [unfold metric_rows; rewrite S7; constructor | rewrite S8; constructor].
Qed.
Lemma reset_ready e v sv : contract e -> on_sliders v -> reset_model e v = Ok sv -> ready e sv /\ sv_settings sv = v /\ sv_seed sv = v_seed v /\ pg_rows (sv_progress sv) = [] /\ s_steps (sv_sim sv) = 0%nat /\ s_running (sv_sim sv) = true /\ w_pools (s_w (sv_sim sv)) = [].
Proof.
  intros C S H. assert (U := reset_usable e v sv S H). destruct (reset_ok e v C S U) as (profiles & stakes & costs & s0 & d & _ & E2 & E3 & E4). rewrite H in E4. apply Ok_inj in E4. subst sv.
  destruct (fresh_fits e s0 _ _ _ _ E2) as (F1 & F2 & F3 & F4). split.
  - constructor; [exact S|]. exists v, profiles, stakes, costs, s0. unfold sv_sim. cbn [sv_progress sv_seed pg_sim]. auto 10.
  - unfold sv_sim. cbn [sv_settings sv_seed sv_progress pg_rows pg_sim]. assert (P := fs_pools _ _ _ _ _ (init_fresh _ _ _ _ _ E2)). auto 10.
Qed.
Lemma ready_step e sv : contract e -> ready e sv -> s_running (sv_sim sv) = true ->
  exists p row, full_step e (Some (sv_seed sv)) served_columns (sv_progress sv) = Ok p /\ sim_step (e_sets e) (e_round e (Some (sv_seed sv)) (s_steps (sv_sim sv))) (sv_sim sv) = Ok (pg_sim p) /\
    pg_rows p = pg_rows (sv_progress sv) ++ [MNat (List.length (w_pools (s_w (sv_sim sv)))) :: row] /\ forall v, sv_settings sv = v -> ready e (mkServer v (sv_seed sv) p).
Proof.
  intros C [S (v & profiles & stakes & costs & s0 & E0 & Sv & U & H & SI & F & O)] R. destruct (arguments_runnable e v Sv U) as (OT & _ & _ & _ & _ & _ & _ & ND & RL).
  destruct (full_step_fits e (ac_args (arguments v)) profiles stakes costs s0 (v_n v) (Some (sv_seed sv)) served_columns C H OT SI ND RL eq_refl) with (p := sv_progress sv) as (p & P1 & P2 & P3 & P4); [|exact F | exact R | now apply O|].
  { intros i J. vm_compute in J. intuition lia. }
  assert (P1' := P1). unfold full_step in P1'. apply bind_ok in P1' as (row & M & P1'). apply bind_ok in P1' as (s' & _ & P1').
  assert (Er : pg_rows p = pg_rows (sv_progress sv) ++ [row]). { destruct (Nat.ltb _ _); [apply bind_ok in P1' as (f & _ & P1')|]; apply Ok_inj in P1'; subst p; reflexivity. }
  apply mapM_ok in M. change served_columns with (1 :: [2; 6; 9; 17; 18; 25])%Z in M. inversion M as [|i x l row' Mx Mr]; subst. cbn [metric] in Mx. apply Ok_inj in Mx. subst x.
  exists p, row'. split; [exact P1|]. split; [exact P2|]. split; [exact Er|]. intros v1 <-. constructor; [exact S|]. cbn [sv_seed sv_progress]. exists v, profiles, stakes, costs, s0. repeat (split; [assumption|]). exact P4.
Qed.
Lemma serving_ready resets e sv : contract e -> serving resets e sv -> ready e sv.
Proof.
  intros C. induction 1 as [sv H|sv m sv' r _ IH H]; [now apply (reset_ready e _ sv C default_on_sliders)|]. destruct m; cbn [on_message] in H.
  - destruct (s_running (sv_sim sv)) eqn:R; [|apply Ok_inj in H; congruence]. destruct (ready_step e sv C IH R) as (p & row & E & _ & _ & Rd). rewrite E in H. cbn [bind] in H. apply bind_ok in H as (cs & _ & H). apply Ok_inj in H. injection H as <- _. now apply Rd.
  - apply bind_ok in H as (sv1 & H1 & H). apply bind_ok in H as (cs & _ & H). apply Ok_inj in H. injection H as <- _. apply (reset_ready e _ sv1 C (rd_sliders _ _ IH) H1).
  - assert (S := submit_on_sliders c _ (rd_sliders _ _ IH)). destruct resets.
    + apply bind_ok in H as (sv1 & H1 & H). apply Ok_inj in H. injection H as <- _. apply (reset_ready e _ sv1 C S H1).
    + apply Ok_inj in H. injection H as <- _. destruct IH as [_ M]. constructor; [exact S | exact M].
  - apply Ok_inj in H. congruence.
Qed.

(** * C79 *)
(** Every message is answered, except that a new model cannot be made of some positions of the sliders: those with the minimum cost above the maximum cost, and those
    with all stake inactive.  A round never fails. *)
Theorem C79_messages_are_answered_partial : forall resets e sv m, contract e -> serving resets e sv ->
  (exists sv' r, on_message resets e m sv = Ok (sv', r)) \/
  exists v, on_sliders v /\ (m = Reset /\ v = sv_settings sv \/ resets = true /\ exists c, m = Submit c /\ v = submit c (sv_settings sv)) /\
    (v_cmax v < v_cmin v /\ on_message resets e m sv = Err ValueError \/ v_inactive v = 1 /\ on_message resets e m sv = Err ZeroDivisionError).
Proof.
  intros resets e sv m C Sv. assert (Rd := serving_ready resets e sv C Sv).
  assert (Q : forall v, on_sliders v -> (exists sv', reset_model e v = Ok sv') \/ v_cmax v < v_cmin v /\ reset_model e v = Err ValueError \/ v_inactive v = 1 /\ reset_model e v = Err ZeroDivisionError).
  { intros v S. destruct (Qclt_le_dec (v_cmax v) (v_cmin v)) as [L|L]; [right; left; split; [exact L | now apply reset_costs]|]. assert (F2 : v_inactive v <= 1) by apply S. destruct (Qcle_lt_or_eq _ _ F2) as [F|F].
    - left. destruct (reset_ok e v C S (conj L F)) as (_ & _ & _ & s0 & _ & _ & _ & _ & E). eauto.
    - right. right. split; [exact F | now apply reset_all_inactive]. }
  destruct m; cbn [on_message].
  - left. destruct (s_running (sv_sim sv)) eqn:R; [|eauto]. destruct (ready_step e sv C Rd R) as (p & row & E & _ & Er & _). rewrite E. cbn [bind]. rewrite (page_rows (mkServer (sv_settings sv) (sv_seed sv) p) _ _ _ Er). cbn [bind]. eauto.
  - destruct (Q _ (rd_sliders _ _ Rd)) as [(sv' & E)|[[L E]|[L E]]].
    + left. rewrite E. cbn [bind]. destruct (reset_ready e _ sv' C (rd_sliders _ _ Rd) E) as (_ & _ & _ & Er & _). rewrite (page_empty sv' Er). cbn [bind]. eauto.
    + right. exists (sv_settings sv). split; [apply Rd|]. split; [auto|]. left. rewrite E. auto.
    + right. exists (sv_settings sv). split; [apply Rd|]. split; [auto|]. right. rewrite E. auto.
  - assert (S := submit_on_sliders c _ (rd_sliders _ _ Rd)). destruct resets; [|left; eauto]. destruct (Q _ S) as [(sv' & E)|[[L E]|[L E]]]; [left; rewrite E; cbn [bind]; eauto| |].
    + right. exists (submit c (sv_settings sv)). split; [exact S|]. split; [eauto|]. left. rewrite E. auto.
    + right. exists (submit c (sv_settings sv)). split; [exact S|]. split; [eauto|]. right. rewrite E. auto.
  - left. eauto.
Qed.
(** The page after a round: the model has made one round, the first chart shows the number of pools there were before the round.  When the model has stopped, nothing
    changes any more. *)
Theorem C79_a_round : forall resets e sv sv' r, contract e -> serving resets e sv -> on_message resets e GetStep sv = Ok (sv', r) ->
  (s_running (sv_sim sv) = false -> sv' = sv /\ r = End) /\
  (s_running (sv_sim sv) = true -> sim_step (e_sets e) (e_round e (Some (sv_seed sv)) (s_steps (sv_sim sv))) (sv_sim sv) = Ok (sv_sim sv') /\ sv_settings sv' = sv_settings sv /\
     exists rest, r = VizState (ShowValues [MNat (List.length (w_pools (s_w (sv_sim sv))))] :: rest)).
Proof.
  intros resets e sv sv' r C Sv H. cbn [on_message] in H. split; intros R; rewrite R in H; [apply Ok_inj in H; split; congruence|]. destruct (ready_step e sv C (serving_ready resets e sv C Sv) R) as (p & row & E & Es & Er & _). rewrite E in H. cbn [bind] in H.
  rewrite (page_rows (mkServer (sv_settings sv) (sv_seed sv) p) _ _ _ Er) in H. cbn [bind] in H. apply Ok_inj in H. injection H as <- <-. unfold sv_sim at 2. cbn [sv_progress sv_settings]. split; [exact Es|]. eauto.
Qed.
(** After "reset" (and, in the server of this repository, after a new setting) there is a new simulation with the settings of the page, before its first round and without
    pools; mesa's server keeps the old one until "reset". *)
Theorem C79_new_settings : forall e sv sv' r c, contract e ->
  (forall resets, serving resets e sv -> on_message resets e Reset sv = Ok (sv', r) ->
     sv_settings sv' = sv_settings sv /\ sv_seed sv' = v_seed (sv_settings sv) /\ (exists d, construct e (Some (v_seed (sv_settings sv))) (arguments (sv_settings sv)) = Ok (sv_sim sv', d)) /\
     s_steps (sv_sim sv') = 0%nat /\ s_running (sv_sim sv') = true /\ w_pools (s_w (sv_sim sv')) = []) /\
  (serving true e sv -> on_message true e (Submit c) sv = Ok (sv', r) ->
     sv_settings sv' = submit c (sv_settings sv) /\ (exists d, construct e (Some (v_seed (sv_settings sv'))) (arguments (sv_settings sv')) = Ok (sv_sim sv', d)) /\
     s_steps (sv_sim sv') = 0%nat /\ s_running (sv_sim sv') = true /\ w_pools (s_w (sv_sim sv')) = []) /\
  (serving false e sv -> on_message false e (Submit c) sv = Ok (sv', r) -> sv_settings sv' = submit c (sv_settings sv) /\ sv_sim sv' = sv_sim sv).
Proof.
  intros e sv sv' r c C.
  assert (Q : forall v sv1, on_sliders v -> reset_model e v = Ok sv1 -> (exists d, construct e (Some (v_seed v)) (arguments v) = Ok (sv_sim sv1, d)) /\ sv_settings sv1 = v /\ sv_seed sv1 = v_seed v /\ s_steps (sv_sim sv1) = 0%nat /\ s_running (sv_sim sv1) = true /\ w_pools (s_w (sv_sim sv1)) = []).
  { intros v sv1 S H. destruct (reset_ready e v sv1 C S H) as (_ & E1 & E2 & _ & E3 & E4 & E5). split; [|auto]. unfold reset_model in H. apply bind_ok in H as ([s0 d] & H & H'). apply Ok_inj in H'. subst sv1. exists d. exact H. }
  split; [|split].
  - intros resets Sv H. cbn [on_message] in H. apply bind_ok in H as (sv1 & H1 & H). apply bind_ok in H as (cs & _ & H). apply Ok_inj in H. injection H as <- _. destruct (Q _ sv1 (rd_sliders _ _ (serving_ready _ e sv C Sv)) H1) as (Q1 & Q2 & Q3 & Q4 & Q5 & Q6). auto 10.
  - intros Sv H. cbn [on_message] in H. apply bind_ok in H as (sv1 & H1 & H). apply Ok_inj in H. injection H as <- _. destruct (Q _ sv1 (submit_on_sliders c _ (rd_sliders _ _ (serving_ready _ e sv C Sv))) H1) as (Q1 & Q2 & Q3 & Q4 & Q5 & Q6). rewrite Q2. auto 10.
  - intros _ H. cbn [on_message] in H. apply Ok_inj in H. injection H as <- _. auto.
Qed.
(** REFUTED: the charts of stakes and of pools.  They ask for metrics that the model does not collect, so whatever happens they stay empty. *)
Theorem C79_two_charts_stay_empty_refuted : forall resets e sv sv' m charts, contract e -> serving resets e sv -> on_message resets e m sv = Ok (sv', VizState charts) ->
  exists first, charts = [first; ShowKeys [] []; ShowCells []].
Proof.
  intros resets e sv sv' m charts C Sv H. assert (Rd := serving_ready resets e sv C Sv). destruct m; cbn [on_message] in H.
  - destruct (s_running (sv_sim sv)) eqn:R; [|discriminate]. destruct (ready_step e sv C Rd R) as (p & row & E & _ & Er & _). rewrite E in H. cbn [bind] in H. rewrite (page_rows (mkServer (sv_settings sv) (sv_seed sv) p) _ _ _ Er) in H. cbn [bind] in H. apply Ok_inj in H. injection H as _ <-. eauto.
  - apply bind_ok in H as (sv1 & H1 & H). destruct (reset_ready e _ sv1 C (rd_sliders _ _ Rd) H1) as (_ & _ & _ & Er & _). rewrite (page_empty sv1 Er) in H. cbn [bind] in H. apply Ok_inj in H. injection H as _ <-. eauto.
  - destruct resets; [apply bind_ok in H as (sv1 & _ & H)|]; discriminate.
  - discriminate.
Qed.
(** REFUTED: the program starts.  It imports a constant that is commented out. *)
Theorem C79_does_not_start_refuted : forall e : env QcA, run_viz e = None.
Proof. intros e. reflexivity. Qed.

(** ** The charts when their metrics are collected *)
Lemma names_inj i j x : reporter_name i = Some x -> reporter_name j = Some x -> i = j.
Proof.
  assert (N : NoDup reporter_names) by (repeat (constructor; [cbn; intuition discriminate|]); constructor). unfold reporter_name. destruct (Z.leb_spec 1 i); [|discriminate]. destruct (Z.leb_spec 1 j); [|discriminate]. intros H1 H2.
  assert (Z.to_nat (i - 1) = Z.to_nat (j - 1)) by (apply (proj1 (NoDup_nth_error _) N); [apply nth_error_Some; congruence | congruence]). lia.
Qed.
Lemma latest_spec (e : env QcA) (s : sim QcA) i x v : reporter_name i = Some x -> forall cols rows row, In i cols -> Forall2 (fun i v => metric e i s = Ok v) cols row -> metric e i s = Ok v -> latest (model_vars cols (rows ++ [row])) x = Some v.
Proof.
  intros Hx. induction cols as [|j cols IH]; intros rows row J F Hv; [destruct J|]. inversion F as [|? y ? row' Fy Fr]; subst. unfold latest. cbn [model_vars].
  destruct (Z.eq_dec j i) as [->|Nj].
  - rewrite Hx, String.eqb_refl, flat_map_app. cbn [flat_map app]. rewrite Hv in Fy. apply Ok_inj in Fy. subst y. match goal with |- context [?l ++ [v]] => generalize l as l0 end. intros [|z l]; [reflexivity|]. cbn [app]. now rewrite last_last.
  - destruct J as [J|J]; [contradiction|]. destruct (reporter_name j) as [y'|] eqn:Ej; [destruct (String.eqb_spec y' x) as [->|_]; [exfalso; apply Nj; now apply (names_inj j i x)|]|]; rewrite map_app; cbn [map tl]; now apply IH.
Qed.
(** With the metrics 1, 21 and 27 among those collected, the charts show the state in which the last row was collected: the number of pools; for each agent, the stake in its
    pools; for each pool, its operator's stake, its stake, its margin, its number and its operator. *)
Theorem C79_charts_show_the_collected_state : forall (e : env QcA) (s : sim QcA) cols rows row dict pools, (forall i, In i [1; 21; 27]%Z -> In i cols) -> Forall2 (fun i v => metric e i s = Ok v) cols row ->
  pool_stakes_by_agent_id (s_n s) (s_w s) = Ok dict -> stakes_n_margins (s_w s) = Ok pools ->
  render_model cols (rows ++ [row]) = Ok [ShowValues [MNat (List.length (w_pools (s_w s)))]; ShowKeys (keys dict) (values dict);
                                          ShowCells (List.concat (map (fun '(x, y, m, pid, oid) => [CNum x; CNum y; CNum m; CId pid; CId oid]) pools))].
Proof.
  intros e s cols rows row dict pools J F H1 H2. unfold render_model, render_line, render_stacked, render_bubble. cbn [flat_map foldM].
  rewrite (latest_spec e s 1 "Pool count" (MNat (number_of_pools (s_w s))) eq_refl cols rows row (J 1%Z ltac:(cbn; auto)) F eq_refl).
  rewrite (latest_spec e s 27 "Stake per agent id" (MDict dict) eq_refl cols rows row (J 27%Z ltac:(cbn; auto)) F) by (cbn [metric]; rewrite H1; reflexivity).
  rewrite (latest_spec e s 21 "StakePairs" (MRows pools) eq_refl cols rows row (J 21%Z ltac:(cbn; auto)) F) by (cbn [metric]; rewrite H2; reflexivity).
  cbn [bind fst snd app]. rewrite <- flat_map_concat_map. reflexivity.
Qed.

(** * Instances *)
(** ten stakeholders and three desired pools, twice "get_step": the second page shows the pools of the first round *)
Definition viz_check (r : res (list (reply QcA))) : bool :=
  match r with Ok [Silent; Silent; VizState (ShowValues [] :: _); VizState (ShowValues [MNat 0] :: _); VizState (ShowValues [MNat (S _)] :: _)] => true | _ => false end.
Fixpoint answers (resets : bool) (e : env QcA) (ms : list (message QcA)) (sv : server QcA) : res (server QcA * list (reply QcA)) :=
  match ms with
  | [] => Ok (sv, [])
  | m :: ms => let! x := on_message resets e m sv in let! y := answers resets e ms (fst x) in Ok (fst y, snd x :: snd y)
  end.
Definition session (v : settings QcA) (resets : bool) (e : env QcA) (ms : list (message QcA)) : res (server QcA * list (reply QcA)) := let! sv := reset_model e v in answers resets e ms sv.
Lemma session_serving v resets e ms sv rs : v = default_settings -> session v resets e ms = Ok (sv, rs) -> serving resets e sv.
Proof.
  intros Ev H. unfold session in H. apply bind_ok in H as (sv0 & H0 & H). rewrite Ev in H0. assert (S0 := serving_start resets e sv0 H0). clear H0. revert sv0 S0 rs H. induction ms as [|m ms IH]; intros sv0 S0 rs H; cbn [answers] in H; [apply Ok_inj in H; injection H as <- _; exact S0|].
  apply bind_ok in H as ([sv1 r1] & H1 & H). cbn [fst] in H. apply bind_ok in H as ([sv2 r2] & H2 & H). apply Ok_inj in H. injection H as <- _. exact (IH sv1 (serving_next resets e sv0 m sv1 r1 S0 H1) r2 H2).
Qed.
Lemma viz_run : viz_check (let! x := session default_settings false (demo_env None) [Submit (SetN 0%Z); Submit (SetK 3%Z); Reset; GetStep; GetStep] in Ok (snd x)) = true.
Proof. vm_compute. reflexivity. Qed.
Lemma viz_instance e v : contract e -> v = default_settings -> viz_check (let! x := session v false e [Submit (SetN 0%Z); Submit (SetK 3%Z); Reset; GetStep; GetStep] in Ok (snd x)) = true ->
  exists sv charts, serving false e sv /\ s_running (sv_sim sv) = true /\ v_n (sv_settings sv) = 10%Z /\ on_message false e GetStep sv = Ok (fst charts, VizState (snd charts)) /\ exists n rest, snd charts = ShowValues [MNat (S n)] :: rest.
Proof.
  intros C Ev R. unfold session in R. destruct (reset_model e v) as [sv0|] eqn:E0; [|discriminate]. cbn [bind] in R. rewrite Ev in E0. assert (S0 := serving_start false e sv0 E0). clear E0 Ev v.
  cbn [answers] in R. set (m1 := Submit (SetN 0%Z)) in R. set (m2 := Submit (SetK 3%Z)) in R.
  destruct (on_message false e m1 sv0) as [[sv1 r1]|] eqn:E1; [|discriminate]. cbn [bind fst snd] in R. assert (S1 := serving_next _ _ _ _ _ _ S0 E1).
  destruct (on_message false e m2 sv1) as [[sv2 r2]|] eqn:E2; [|discriminate]. cbn [bind fst snd] in R. assert (S2 := serving_next _ _ _ _ _ _ S1 E2).
  destruct (on_message false e Reset sv2) as [[sv3 r3]|] eqn:E3; [|discriminate]. cbn [bind fst snd] in R. assert (S3 := serving_next _ _ _ _ _ _ S2 E3).
  destruct (on_message false e GetStep sv3) as [[sv4 r4]|] eqn:E4; [|discriminate]. cbn [bind fst snd] in R. assert (S4 := serving_next _ _ _ _ _ _ S3 E4).
  destruct (on_message false e GetStep sv4) as [[sv5 r5]|] eqn:E5; [|discriminate]. cbn [bind fst snd] in R.
  unfold viz_check in R. destruct r1; try discriminate. destruct r2; try discriminate. destruct r3 as [|[|[[|]| |] ?]|]; try discriminate. destruct r4 as [|[|[[|[[|]| | | | |] [|]]| |] ?]|]; try discriminate. destruct r5 as [|[|[[|[[|n]| | | | |] [|]]| |] rest]|]; try discriminate.
  exists sv4, (sv5, ShowValues [MNat (S n)] :: rest). split; [exact S4|]. split; [|split; [|split; [exact E5 | exists n, rest; reflexivity]]].
  - destruct (s_running (sv_sim sv4)) eqn:Rn; [reflexivity|]. destruct (proj1 (C79_a_round _ _ _ _ _ C S4 E5) Rn) as [_ Q]. discriminate.
  - destruct (s_running (sv_sim sv3)) eqn:Rn; [|destruct (proj1 (C79_a_round _ _ _ _ _ C S3 E4) Rn) as [_ Q]; discriminate].
    destruct (proj2 (C79_a_round _ _ _ _ _ C S3 E4) Rn) as (_ & Q4 & _). destruct (proj1 (C79_new_settings _ sv2 sv3 _ (SetN 0%Z) C) false S2 E3) as (Q3 & _).
    assert (Q2 := proj2 (proj2 (C79_new_settings _ sv1 sv2 _ (SetK 3%Z) C)) S1 E2). assert (Q1 := proj2 (proj2 (C79_new_settings _ sv0 sv1 _ (SetN 0%Z) C)) S0 E1).
    rewrite Q4, Q3, (proj1 Q2), (proj1 Q1). destruct (sv_settings sv0). reflexivity.
Qed.
Example C79_instance : exists e sv charts, contract e /\ serving false e sv /\ s_running (sv_sim sv) = true /\ v_n (sv_settings sv) = 10%Z /\ on_message false e GetStep sv = Ok (fst charts, VizState (snd charts)) /\
  exists n rest, snd charts = ShowValues [MNat (S n)] :: rest.
Proof.
  destruct (viz_instance (demo_env None) default_settings (demo_contract None) eq_refl viz_run) as (sv & charts & H). exists (demo_env None), sv, charts. split; [exact (demo_contract None) | exact H].
Qed.
(** REFUTED: every position of the sliders gives a simulation.  The two positions of C79_messages_are_answered_partial can be set. *)
Theorem C79_slider_positions_refuted : forall e, contract e ->
  reset_model e (submit (SetInactive (A := QcA) 1) default_settings) = Err ZeroDivisionError /\ reset_model e (submit (SetCostMin (A := QcA) (Q2Qc (1#100))) default_settings) = Err ValueError /\ on_sliders (submit (SetInactive (A := QcA) 1) default_settings) /\ on_sliders (submit (SetCostMin (A := QcA) (Q2Qc (1#100))) default_settings).
Proof.
  intros e C. assert (S1 := submit_on_sliders (SetInactive (A := QcA) 1) _ default_on_sliders). assert (S2 := submit_on_sliders (SetCostMin (A := QcA) (Q2Qc (1#100))) _ default_on_sliders).
  split; [|split; [|split; assumption]].
  - apply reset_all_inactive; [exact C | exact S1 | discriminate | apply Qc_is_canon; reflexivity].
  - apply reset_costs. reflexivity.
Qed.
