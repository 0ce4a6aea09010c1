(** run_model called on a model that has already been stepped by hand (C23): it restarts the sequence of pool ids while pools are open. *)
From Coq Require Import ZArith QArith Qcanon List Bool Arith Lia Permutation.
From Verif Require Import Num Py ListFacts QcTac Rewards SortedKeyList World Stakeholder Sched Sim Init Reach SimInv Spec PropInit PropRun Demo.
Import ListNotations.
Open Scope nat_scope.

(** Called on a new model, run_model performs ordinary rounds: what C23 and C74 say about the states reached by [step] holds of it *)
Theorem C23_run_model_is_steps : forall (A : Arith) so g profiles stakes costs (s0 s : sim A) ch, init g profiles stakes costs = Ok s0 -> run_model so ch s0 = Ok s -> reach so s0 s.
Proof.
  intros A so g profiles stakes costs s0 s ch H E. destruct (C29_run_model_terminates A so g profiles stakes costs s0 ch H) as (n & R & _). rewrite E in R. clear -R.
  remember (Ok s) as r eqn:Er. revert Er. induction R as [s1 L|s1 e L E|n s1 s2 r L E R IH]; intros Er; [injection Er as ->; constructor | discriminate |].
  specialize (IH Er). clear -IH E. induction IH; [econstructor; [constructor | exact E] | econstructor; eassumption].
Qed.

(** ** Calling it after manual steps *)
Definition restart_args : args QcA :=
  mkArgs (A := QcA) (Single 2%Z) (Single (Q2Qc 1)) (Single (Q2Qc (3#10))) (Single (Q2Qc 0)) (Single (Q2Qc (1#1000000))) (Single 20%Z) (Single (Q2Qc 2)) (Single Sequential) (Single true) 0 (Q2Qc 0) false 3.
Notation restart_init := (init restart_args [NonMyopic; Myopic] [Q2Qc (6#16); Q2Qc (10#16)] [Q2Qc (2#30); Q2Qc (4#30)]).

(** Two rounds by hand, then run_model. In its first round both agents operate a pool with id 1 - two different pools, of which only agent 1's is listed as active -
    although agent 0's pool was opened under that id first; in a later round run_model raises KeyError. On the new model the same run_model succeeds. *)
Theorem C23_run_model_after_steps_refuted : exists (g : args QcA) profiles stakes costs (s0 s s1 : sim QcA),
  init g profiles stakes costs = Ok s0 /\ one_at_a_time g /\ reach so_id s0 s /\ s_running s = true /\
  (* the state run_model is called in, and after its first round *)
  (exists p, operates (s_w s) 0 1 p /\ active (s_w s) 1 p) /\
  sim_step so_id no_choice (initialize_pool_id_seq s) = Ok s1 /\
  (exists p q, operates (s_w s1) 0 1 p /\ operates (s_w s1) 1 1 q /\ p_owner p = 0 /\ p_owner q = 1 /\ active (s_w s1) 1 q /\ ~ active (s_w s1) 1 p) /\
  (* what run_model returns, then and on the new model *)
  run_model so_id (fun _ => no_choice) s = Err KeyError /\ (exists s', run_model so_id (fun _ => no_choice) s0 = Ok s' /\ s_running s' = false).
Proof.
  exists restart_args, [NonMyopic; Myopic], [Q2Qc (6#16); Q2Qc (10#16)], [Q2Qc (2#30); Q2Qc (4#30)].
  destruct (steps_check restart_init 2 (fun s => s_running s && pool_is (s_w s) 1 (fun _ => true) &&
    agent_is (s_w s) 0 (fun _ st => match get (s_owned st) 1, get (w_pools (s_w s)) 1 with Some r, Some r' => Nat.eqb r r' | _, _ => false end) &&
    match run_model so_id (fun _ => no_choice) s with Err KeyError => true | _ => false end &&
    match sim_step so_id no_choice (initialize_pool_id_seq s) with
    | Ok s1 => agent_is (s_w s1) 0 (fun _ st => match get (s_owned st) 1 with Some r => match get (w_heap (s_w s1)) r with Some p => Nat.eqb (p_owner p) 0 | None => false end | None => false end) &&
        agent_is (s_w s1) 1 (fun _ st => match get (s_owned st) 1, get (w_pools (s_w s1)) 1 with Some r, Some r' => Nat.eqb r r' && match get (w_heap (s_w s1)) r with Some p => Nat.eqb (p_owner p) 1 | None => false end | _, _ => false end)
    | Err _ => false end)) as (s0 & s & H0 & H2 & Hc); [vm_compute; reflexivity|].
  assert (Hn : match (let! s0 := restart_init in run_model so_id (fun _ => no_choice) s0) with Ok s => negb (s_running s) | Err _ => false end = true) by (vm_compute; reflexivity).
  rewrite H0 in Hn. cbn [bind] in Hn. destruct (run_model so_id (fun _ => no_choice) s0) as [s'|] eqn:En; [|discriminate].
  apply andb_true_iff in Hc as [Hc C5]. apply andb_true_iff in Hc as [Hc C4]. apply andb_true_iff in Hc as [Hc C3]. apply andb_true_iff in Hc as [C1 C2].
  destruct (sim_step so_id no_choice (initialize_pool_id_seq s)) as [s1|] eqn:E1; [|discriminate]. apply andb_true_iff in C5 as [C5 C6].
  apply pool_is_active in C2 as (p0 & (r0 & P1 & P2) & _). apply agent_is_plays in C3 as (ag0 & st0 & Pl0 & C3). destruct (get (s_owned st0) 1) as [r|] eqn:Eo; [|discriminate]. rewrite P1 in C3. apply Nat.eqb_eq in C3 as ->.
  apply agent_is_plays in C5 as (ag1 & st1 & Pl1 & C5). destruct (get (s_owned st1) 1) as [r1|] eqn:Eo1; [|discriminate]. destruct (get (w_heap (s_w s1)) r1) as [p|] eqn:Eh1; [|discriminate]. apply Nat.eqb_eq in C5.
  apply agent_is_plays in C6 as (ag2 & st2 & Pl2 & C6). destruct (get (s_owned st2) 1) as [r2|] eqn:Eo2; [|discriminate]. destruct (get (w_pools (s_w s1)) 1) as [r2'|] eqn:Ep; [|discriminate]. apply andb_true_iff in C6 as [C6 C7].
  apply Nat.eqb_eq in C6 as <-. destruct (get (w_heap (s_w s1)) r2) as [q|] eqn:Eh2; [|discriminate]. apply Nat.eqb_eq in C7.
  exists s0, s, s1. split; [exact H0|]. split; [constructor; [now right | constructor]|]. split; [exact (steps_reach _ _ _ H2)|]. split; [exact C1|].
  split; [exists p0; split; [exists ag0, st0, r0; split; [exact Pl0 | now split] | exists r0; now split]|]. split; [exact E1|].
  split. { exists p, q. split; [exists ag1, st1, r1; split; [exact Pl1 | now split]|]. split; [exists ag2, st2, r2; split; [exact Pl2 | now split]|]. split; [exact C5|]. split; [exact C7|]. split; [exists r2; now split|].
    intros (r & J1 & J2). rewrite Ep in J1. injection J1 as <-. rewrite Eh2 in J2. injection J2 as ->. rewrite C5 in C7. discriminate C7. }
  split; [destruct (run_model so_id (fun _ => no_choice) s) as [|[]]; try discriminate C4; reflexivity | exists s'; split; [exact En | now destruct (s_running s')]].
Qed.
