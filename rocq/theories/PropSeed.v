(** Seeds and repeatability (C72): executions with the same seed, executions repeated from the seed or from the arguments that an execution has saved. *)
From Coq Require Import ZArith List Bool Permutation QArith Qcanon Lia.
From Verif Require Import Num QcTac Py ListFacts Rewards SortedKeyList World Stakeholder Helper Sched Sim Init Reporters Export Spec Reach SimInv Demo PropSched PropRun PropSimul Main PropMain.
Import ListNotations.

(** Two executions of the same program on the same machine: the same libraries, the same files.  What differs: the seed that is drawn when none is given, and the choices of a generator that is not
    seeded. *)
Record same_machine {A} (e e' : env A) : Prop := mkSame {
  sm_pareto : e_pareto e' = e_pareto e; sm_uniform : e_uniform e' = e_uniform e; sm_sample : e_sample e' = e_sample e; sm_file : e_file e' = e_file e; sm_solver : e_solver e' = e_solver e;
  sm_sets : e_sets e' = e_sets e; sm_round15 : e_round15 e' = e_round15 e; sm_round4 : e_round4 e' = e_round4 e;
  sm_choices : forall z weights n, e_choices e' (Some z) weights n = e_choices e (Some z) weights n; sm_round : forall z i, e_round e' (Some z) i = e_round e (Some z) i
}.
Definition with_seed {A} (o : cmdline A) (v : option (pyval A)) : cmdline A :=
  mkCmd (o_n o) (o_k o) (o_a0 o) (o_scheme o) (o_weights o) (o_cost_min o) (o_cost_max o) (o_phi o) (o_order o) (o_abs o) (o_rel o) (o_source o) (o_pareto o) (o_inactive o) (o_known o) (o_itac o)
    (o_maxit o) (o_metrics o) (o_graphs o) v.

Lemma bind_congr {X Y} (m : res X) (f g : X -> res Y) : (forall x, f x = g x) -> bind m f = bind m g.
Proof. intros H. destruct m; [apply H | reflexivity]. Qed.
Section Same.
  Context {A : Arith}.
  Variables (e e' : env A) (rng rng' : option Z).
  Hypothesis SM : same_machine e e'.
  Lemma same_metric i s : metric e' i s = metric e i s.
  Proof. unfold metric. destruct i as [|i|i]; try reflexivity. unfold min_aggregate_pledge. rewrite (sm_solver _ _ SM). reflexivity. Qed.
  Lemma same_files rows s : write_files e' rows s = write_files e rows s.
  Proof. unfold write_files. now rewrite (sm_round15 _ _ SM), (sm_round4 _ _ SM). Qed.
  Lemma same_metrics cols s : mapM (fun i => metric e' i s) cols = mapM (fun i => metric e i s) cols.
  Proof. induction cols as [|i cols IH]; [reflexivity|]. cbn [mapM]. now rewrite same_metric, IH. Qed.
  (** a round comes out the same if the choices are the same or do not matter *)
  Definition same_round (s : sim A) : Prop := e_round e' rng' (s_steps s) = e_round e rng (s_steps s) \/ c_sched (s_c s) = Sequential.
  Lemma same_step cols p : same_round (pg_sim p) -> full_step e' rng' cols p = full_step e rng cols p.
  Proof.
    intros R. unfold full_step. rewrite same_metrics, (sm_sets _ _ SM). assert (E : sim_step (e_sets e) (e_round e' rng' (s_steps (pg_sim p))) (pg_sim p) = sim_step (e_sets e) (e_round e rng (s_steps (pg_sim p))) (pg_sim p)).
    { destruct R as [->|R]; [reflexivity|]. unfold sim_step. cbn [set_rows s_c s_w s_steps s_maxit]. rewrite R. reflexivity. }
    rewrite E. clear E. destruct (mapM _ cols) as [row|]; [cbn [bind]|reflexivity]. apply bind_congr. intros s'. now rewrite same_files.
  Qed.
  Lemma full_step_sched cols p p' : full_step e rng cols p = Ok p' -> s_c (pg_sim p') = s_c (pg_sim p).
  Proof.
    unfold full_step. intros H. apply bind_ok in H as (row & _ & H). apply bind_ok in H as (s' & H1 & H). apply (step_shape (e_sets e)) in H1 as (H1 & _).
    destruct (Nat.ltb _ _); [apply bind_ok in H as (f & _ & H)|]; injection H as <-; exact H1.
  Qed.
  Lemma same_loop cols fuel : forall p, (forall i, e_round e' rng' i = e_round e rng i) \/ c_sched (s_c (pg_sim p)) = Sequential -> full_loop e' rng' cols fuel p = full_loop e rng cols fuel p.
  Proof.
    induction fuel as [|fuel IH]; intros p R; cbn [full_loop]; [reflexivity|]. destruct (_ && _)%bool; [|reflexivity]. rewrite same_step by (destruct R as [R|R]; [left; apply R | now right]).
    destruct (full_step e rng cols p) as [p'|] eqn:E; [cbn [bind]|reflexivity]. apply IH. destruct R as [R|R]; [now left|]. right. now rewrite (full_step_sched _ _ _ E).
  Qed.
  Lemma same_construct ac ac' : ac_args ac' = ac_args ac -> ac_weights ac' = ac_weights ac -> ac_cost_min ac' = ac_cost_min ac -> ac_cost_max ac' = ac_cost_max ac -> ac_source ac' = ac_source ac -> ac_pareto ac' = ac_pareto ac ->
    used_seed e' ac' = used_seed e ac -> (forall n, e_choices e' rng' (ac_weights ac) n = e_choices e rng (ac_weights ac) n) -> construct e' rng' ac' = construct e rng ac.
  Proof.
    intros H1 H2 H3 H4 H5 H6 H7 H8. unfold construct, cost_distribution, draw_profiles, stake_distribution, read_stakes.
    rewrite H1, H2, H3, H4, H5, H6, H7, (sm_pareto _ _ SM), (sm_uniform _ _ SM), (sm_sample _ _ SM), (sm_file _ _ SM). destruct (match g_n (ac_args ac) with Single n => _ | Multi l => _ end) as [n|]; [cbn [bind]|reflexivity]. now rewrite H8.
  Qed.
End Same.

Lemma constructed_sched {A} (e : env A) rng ac s d : construct e rng ac = Ok (s, d) -> In (c_sched (s_c s)) (phase_values (g_order (ac_args ac))).
Proof.
  unfold construct. intros H. apply bind_ok in H as (n & _ & H). apply bind_ok in H as (st & _ & H). apply bind_ok in H as (co & _ & H). apply bind_ok in H as (pr & _ & H). apply bind_ok in H as (s' & Hi & H). apply bind_ok in H as (d' & _ & H).
  injection H as <- _. apply init_fresh in Hi. destruct (fs_order _ _ _ _ _ Hi) as (_ & -> & H). exact H.
Qed.
Lemma parse_seed {A} (o : cmdline A) ac : parse o = Ok ac -> match o_seed o with None => ac_seed ac = None | Some v => exists z, non_negative_int v = Ok z /\ ac_seed ac = Some z end.
Proof.
  unfold parse. intros H. do 14 (apply bind_ok in H as (? & _ & H)). apply bind_ok in H as (seed & H1 & H). injection H as <-. cbn [ac_seed].
  destruct (o_seed o) as [v|]; [apply bind_ok in H1 as (z & H1 & H2); injection H2 as <-; eauto | now injection H1].
Qed.
Lemma parse_with_seed {A} (o : cmdline A) z : o_seed o = None -> (0 <= z)%Z -> parse (with_seed o (Some (VInt z))) =
  let! ac := parse o in Ok (mkAcc (ac_args ac) (ac_weights ac) (ac_cost_min ac) (ac_cost_max ac) (ac_source ac) (ac_pareto ac) (ac_metrics ac) (Some z)).
Proof.
  intros N L. unfold parse, with_seed. cbn [o_n o_k o_a0 o_scheme o_weights o_cost_min o_cost_max o_phi o_order o_abs o_rel o_source o_pareto o_inactive o_known o_itac o_maxit o_metrics o_graphs o_seed]. rewrite N.
  repeat match goal with |- bind ?m _ = bind (bind ?m _) _ => destruct m; [cbn [bind]|reflexivity] end.
  unfold non_negative_int. cbn. destruct (Z.ltb_spec z 0); [lia|]. reflexivity.
Qed.

(** With a seed on the command line, everything that the program does is determined. *)
Theorem C72_same_seed_same_outcome : forall (A : Arith) (e e' : env A) (o : cmdline A), same_machine e e' -> o_seed o <> None -> main e' o = main e o.
Proof.
  intros A e e' o SM N. unfold main. destruct (parse o) as [ac|] eqn:E; [cbn [bind]|reflexivity]. apply parse_seed in E. destruct (o_seed o) as [v|]; [|congruence]. destruct E as (z & _ & E). unfold execute, used_seed. rewrite E.
  rewrite (same_construct e e' (Some z) (Some z) SM ac ac); try reflexivity; [|unfold used_seed; now rewrite E | intros n; apply (sm_choices _ _ SM)].
  destruct (construct e (Some z) ac) as [[s d]|]; [cbn [bind]|reflexivity]. rewrite (same_loop e e' (Some z) (Some z) SM); [reflexivity|]. left. intros i. apply (sm_round _ _ SM).
Qed.
(** The arguments that an execution has saved repeat it, if the seed is given on the command line again. *)
Theorem C72_saved_arguments_repeat : forall (A : Arith) (e e' : env A) (o o' : cmdline A) oc ac', same_machine e e' -> o_seed o <> None -> main e o = Ok oc -> parse o' = Ok ac' -> o_seed o' = o_seed o ->
  main_from_file e' (oc_args oc) o' = Ok oc.
Proof.
  intros A e e' o o' oc ac' SM N H P S. rewrite <- (C72_same_seed_same_outcome A e e' o SM N) in H. unfold main in H. apply bind_ok in H as (ac & E & H).
  assert (oc_args oc = ac) as ->. { unfold execute in H. apply bind_ok in H as ((s, d) & _ & H). apply bind_ok in H as (p & _ & H). now injection H as <-. }
  unfold main_from_file. rewrite P. cbn [bind]. apply parse_seed in P. apply parse_seed in E. rewrite S in P. destruct (o_seed o) as [v|]; [|congruence]. destruct P as (z & P1 & ->). destruct E as (z' & E1 & E2). assert (z' = z) as -> by congruence. now rewrite E2 in H.
Qed.
(** Without a seed on the command line, the seed that was recorded repeats the execution if nothing depends on the generator of the model: agents act in the order of their numbers, and there is one
    profile only. *)
Theorem C72_recorded_seed_partial : forall (A : Arith) (e e' : env A) (o : cmdline A) oc, same_machine e e' -> o_seed o = None -> (0 <= e_seed e)%Z -> o_order o = Some Sequential ->
  (forall ac n rng rng', parse o = Ok ac -> e_choices e' rng' (ac_weights ac) n = e_choices e rng (ac_weights ac) n) ->
  main e o = Ok oc -> exists oc', main e' (with_seed o (Some (VInt (oc_seed oc)))) = Ok oc' /\ oc_seed oc' = oc_seed oc /\ oc_initial oc' = oc_initial oc /\ oc_end oc' = oc_end oc /\ oc_equilibrium oc' = oc_equilibrium oc.
Proof.
  intros A e e' o oc SM N L S HC H. unfold main in H. apply bind_ok in H as (ac & E & H). unfold execute in H. apply bind_ok in H as ((s, d) & H1 & H). apply bind_ok in H as (p & H2 & H). injection H as <-. cbn [oc_seed oc_initial oc_end oc_equilibrium].
  assert (Es := parse_seed o ac E). rewrite N in Es. assert (U : used_seed e ac = e_seed e) by (unfold used_seed; now rewrite Es). unfold main. rewrite U, parse_with_seed by assumption. rewrite E. cbn [bind ac_seed]. unfold execute. cbn [ac_metrics].
  assert (Eo : phase_values (g_order (ac_args ac)) = [Sequential]). { clear - E S. unfold parse in E. do 15 (apply bind_ok in E as (? & _ & E)). injection E as <-. cbn. now rewrite S. }
  rewrite (same_construct e e' (ac_seed ac) (Some (e_seed e)) SM ac _); try reflexivity; [|now rewrite U | intros n; now apply HC]. rewrite H1. cbn [bind].
  apply constructed_sched in H1. rewrite Eo in H1. destruct H1 as [H1|[]].
  rewrite (same_loop e e' (ac_seed ac) (Some (e_seed e)) SM) by (right; cbn; symmetry; exact H1). rewrite H2. cbn [bind]. eexists. split; [reflexivity|]. cbn. auto.
Qed.

(** * Counterexamples and instances *)
(** the world of PropMain.v, with a generator that puts the agents in order when it is seeded, and in the order [r] when it is not *)
Definition seed_env (r : choices) : env QcA :=
  let e := demo_env (Some demo_stakes) in
  mkEnv (A := QcA) (e_seed e) (e_pareto e) (e_uniform e) (e_choices e) (e_sample e) (e_file e) (e_solver e) (e_sets e) (fun rng _ => match rng with None => r | Some _ => no_choice end) (e_round15 e) (e_round4 e).
Definition backwards : choices := mkChoices (fun l => rev l) (fun _ l n => firstn n l).
Lemma seed_env_contract r : fair r -> contract (seed_env r).
Proof.
  intros F. destruct (demo_contract (Some demo_stakes)) as (H1 & H2 & H3 & H4 & H5 & H6). split; [exact H1|]. split; [exact H2|]. split; [exact H3|]. split; [exact H4|]. split; [exact H5|]. intros [z|] i; [exact fair_no_choice | exact F].
Qed.
Lemma fair_backwards : fair backwards.
Proof. split; [intros l; cbn; apply Permutation_sym, Permutation_rev | apply fair_no_choice]. Qed.
Lemma seed_env_same r r' : same_machine (seed_env r) (seed_env r').
Proof. constructor; reflexivity. Qed.
(** python3 main.py --n 4 --k 2 ... --agent_activation_order ord --metrics 28 [--seed ...]; metric 28 is the total stake of the pools *)
Definition seed_cmd (ord : order) (seed : option (pyval QcA)) : cmdline QcA :=
  mkCmd (A := QcA) (Some (VInt 4)) (Some [VInt 2]) (Some [Q2Qc (3#10)]) (Some 0%Z) (Some [0; 1; 0]) (Some (Q2Qc (1#1000))) (Some (Q2Qc (1#2))) (Some (Q2Qc 2)) (Some ord) (Some (Q2Qc (1#100))) None
    (Some FromFile) None (Some 0) false (Some 1%Z) (Some (VInt 20)) (Some [28%Z]) false seed.
(** the stake in pools at the end, the seed used and whether an equilibrium was reached *)
Definition seed_check (r : res (outcome QcA)) (x : Qc) (z : Z) (b : bool) : bool :=
  match r with
  | Ok oc => match total_delegated_stake (s_w (pg_sim (oc_end oc))) with Ok y => Qc_eqb y x && (oc_seed oc =? z)%Z && Bool.eqb (oc_equilibrium oc) b | Err _ => false end
  | Err _ => false
  end.
Lemma seed_check_Ok r x z b : seed_check r x z b = true -> exists oc, r = Ok oc /\ total_delegated_stake (A := QcA) (s_w (pg_sim (oc_end oc))) = Ok x /\ oc_seed oc = z /\ oc_equilibrium oc = b.
Proof.
  destruct r as [oc|]; [|discriminate]. cbn [seed_check]. destruct (total_delegated_stake _) as [y|] eqn:E; [|discriminate]. intros B. apply andb_true_iff in B as [B B3]. apply andb_true_iff in B as [B1 B2].
  apply Z.eqb_eq in B2. apply eqb_prop in B3. exists oc. split; [reflexivity|]. split; [|now split]. rewrite E. f_equal. destruct (Qc_eqb_spec y x); [assumption | discriminate].
Qed.

(** REFUTED: the recorded seed does not repeat an execution that was started without one: profiles and the order of activation are drawn from a generator that has been made before that seed was drawn. *)
Theorem C72_recorded_seed_refuted : exists (e e' : env QcA) o oc oc', contract e /\ contract e' /\ same_machine e e' /\ o_seed o = None /\ main e o = Ok oc /\
  main e' (with_seed o (Some (VInt (oc_seed oc)))) = Ok oc' /\ oc_seed oc' = oc_seed oc /\ oc_equilibrium oc = true /\ oc_equilibrium oc' = true /\
  total_delegated_stake (s_w (pg_sim (oc_end oc))) <> total_delegated_stake (s_w (pg_sim (oc_end oc'))).
Proof.
  assert (E1 : seed_check (main (seed_env backwards) (seed_cmd Random None)) (Q2Qc (4#5)) 7 true = true) by (vm_compute; reflexivity).
  assert (E2 : seed_check (main (seed_env backwards) (seed_cmd Random (Some (VInt 7)))) (Q2Qc (3#5)) 7 true = true) by (vm_compute; reflexivity).
  apply seed_check_Ok in E1 as (oc & M1 & T1 & S1 & Q1). apply seed_check_Ok in E2 as (oc' & M2 & T2 & S2 & Q2).
  exists (seed_env backwards), (seed_env backwards), (seed_cmd Random None), oc, oc'. split; [apply seed_env_contract, fair_backwards|]. split; [apply seed_env_contract, fair_backwards|]. split; [apply seed_env_same|]. split; [reflexivity|]. split; [exact M1|].
  rewrite S1. split; [exact M2|]. split; [exact S2|]. split; [exact Q1|]. split; [exact Q2|]. rewrite T1, T2. discriminate.
Qed.
Definition no_options : cmdline QcA := mkCmd (A := QcA) None None None None None None None None None None None None None None false None None None false None.
Lemma saved_first : seed_check (main (seed_env backwards) (seed_cmd Random (Some (VInt 7)))) (Q2Qc (3#5)) 7 true = true.
Proof. vm_compute. reflexivity. Qed.
Lemma saved_again : seed_check (let! ac := parse (seed_cmd Random (Some (VInt 7))) in main_from_file (seed_env backwards) ac no_options) (Q2Qc (4#5)) 7 true = true.
Proof. vm_compute. reflexivity. Qed.
Lemma executed_args {A} (e : env A) rng ac oc : execute e rng ac = Ok oc -> oc_args oc = ac.
Proof. intros H. unfold execute in H. apply bind_ok in H as ((s, d) & _ & H). apply bind_ok in H as (p & _ & H). now injection H as <-. Qed.
(** REFUTED: nor do the saved arguments repeat an execution, even one that was started with a seed, unless the seed is given on the command line again. *)
Theorem C72_saved_arguments_refuted : exists (e e' : env QcA) o o' ac' oc oc', contract e /\ contract e' /\ same_machine e e' /\ o_seed o <> None /\ main e o = Ok oc /\
  parse o' = Ok ac' /\ main_from_file e' (oc_args oc) o' = Ok oc' /\ oc_args oc' = oc_args oc /\ oc_seed oc' = oc_seed oc /\ oc_equilibrium oc = true /\ oc_equilibrium oc' = true /\
  total_delegated_stake (s_w (pg_sim (oc_end oc))) <> total_delegated_stake (s_w (pg_sim (oc_end oc'))).
Proof.
  pose proof saved_first as E1. pose proof saved_again as E2. apply seed_check_Ok in E1 as (oc & M1 & T1 & S1 & Q1). apply seed_check_Ok in E2 as (oc' & M2 & T2 & S2 & Q2). 
  assert (N : o_seed (seed_cmd Random (Some (VInt 7))) <> None) by discriminate. revert M1 M2 N. generalize (seed_cmd Random (Some (VInt 7))) no_options. intros o o' M1 M2 N.
  apply bind_ok in M2 as (ac & P & M2). assert (M2' := M2). unfold main_from_file in M2'. apply bind_ok in M2' as (ac' & P' & M2'). apply executed_args in M2'.
  assert (M1' := M1). unfold main in M1'. rewrite P in M1'. cbn [bind] in M1'. apply executed_args in M1'.
  exists (seed_env backwards), (seed_env backwards), o, o', ac', oc, oc'. split; [apply seed_env_contract, fair_backwards|]. split; [apply seed_env_contract, fair_backwards|]. split; [apply seed_env_same|]. split; [exact N|]. split; [exact M1|].
  split; [exact P'|]. rewrite M1'. split; [exact M2|]. split; [exact M2'|]. split; [congruence|]. split; [exact Q1|]. split; [exact Q2|]. rewrite T1, T2. discriminate.
Qed.
(** executions that meet the hypotheses of the theorems above, on machines whose unseeded generators differ *)
Example C72_instance : same_machine (seed_env backwards) (seed_env no_choice) /\
  (exists oc, main (seed_env backwards) (seed_cmd Random (Some (VInt 7))) = Ok oc /\ total_delegated_stake (s_w (pg_sim (oc_end oc))) = Ok (Q2Qc (3#5))) /\
  (exists oc, main (seed_env backwards) (seed_cmd Sequential None) = Ok oc /\ (0 <= e_seed (seed_env backwards))%Z /\ total_delegated_stake (s_w (pg_sim (oc_end oc))) = Ok (Q2Qc (3#5))) /\
  forall ws n rng rng', e_choices (seed_env no_choice) rng ws n = e_choices (seed_env backwards) rng' ws n.
Proof.
  split; [apply seed_env_same|]. split; [|split; [|reflexivity]].
  - assert (E1 : seed_check (main (seed_env backwards) (seed_cmd Random (Some (VInt 7)))) (Q2Qc (3#5)) 7 true = true) by (vm_compute; reflexivity). apply seed_check_Ok in E1 as (oc & M1 & T1 & _). eauto.
  - assert (E1 : seed_check (main (seed_env backwards) (seed_cmd Sequential None)) (Q2Qc (3#5)) 7 true = true) by (vm_compute; reflexivity). apply seed_check_Ok in E1 as (oc & M1 & T1 & _). exists oc. split; [exact M1|]. split; [discriminate | exact T1].
Qed.
