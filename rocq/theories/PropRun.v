(** Runs: C29 (termination), C34 (metrics rows), C30 (equilibria follow idle rounds). *)
From Coq Require Import ZArith QArith Qcanon List Bool Arith Lia Permutation.
From Verif Require Import Num Py QcTac Rewards SortedKeyList World Stakeholder Sched Sim Init Reach ListFacts Eval SimInv Spec PropInit Demo PropSched Ends Frame.
Import ListNotations.
Open Scope nat_scope.

Section Spec.
  Context {A : Arith}.
  Variable so : list nat -> list nat -> list nat.
  (** the condition of the loop of run_model *)
  Definition loops (s : sim A) : bool := (Z.of_nat (s_steps s) <=? s_maxit s)%Z && s_running s.
  (** [run ch n s r]: from [s], the loop calls step() n times and ends with result [r] (a state, or the exception that was raised) *)
  Inductive run (ch : nat -> choices) : nat -> sim A -> res (sim A) -> Prop :=
  | run_stop s : loops s = false -> run ch 0 s (Ok s)
  | run_raise s e : loops s = true -> sim_step so (ch (s_steps s)) s = Err e -> run ch 1 s (Err e)
  | run_next n s s' r : loops s = true -> sim_step so (ch (s_steps s)) s = Ok s' -> run ch n s' r -> run ch (S n) s r.

  (** [rounds s0 l s]: [l] lists the rounds executed so far, oldest first, each with the random choices made in it and the state of the object before it *)
  Inductive rounds (s0 : sim A) : list (choices * sim A) -> sim A -> Prop :=
  | rounds_start : rounds s0 [] s0
  | rounds_next l ch s s' : rounds s0 l s -> (Z.of_nat (s_steps s) < s_maxit s)%Z -> sim_step so ch s = Ok s' -> rounds s0 (l ++ [(ch, s)]) s'.

  (** no agent changes its strategy at any point of the round *)
  Definition quiet (x : choices * sim A) : Prop :=
    let '(ch, s) := x in forall evs1 evs2 w1, round_events (c_sched (s_c s)) ch (keys (w_agents (s_w s))) = Ok (evs1 ++ evs2) ->
      foldM (do_event so) evs1 (s_w s) = Ok w1 -> strategies w1 = strategies (s_w s).

  (** max_iterations is the same in all phases *)
  Definition one_maxit (s : sim A) : Prop := forall l v, In l (c_multi (s_c s)) -> In v l -> forall x, v <> SetMaxIter x.
End Spec.
Definition single_maxit {A} (g : args A) (M : Z) : Prop := g_maxit g = Single M.

Section Run.
  Context {A : Arith}.
  Variable so : list nat -> list nat -> list nat.
  Implicit Types s : sim A.

  Lemma unrank_frame w r (w' : world A) : unrank_pool w r = Ok w' -> calm w w'.
  Proof. unfold unrank_pool. intros H. apply bind_ok in H as (w1 & H1 & H). apply rr_calm in H1. apply rmr_calm in H. eapply calm_trans; eassumption. Qed.
  Lemma rerank_frame w r (w' : world A) : rerank_pool w r = Ok w' -> calm w w'.
  Proof.
    unfold rerank_pool. intros H. apply bind_ok in H as (p & _ & H). apply bind_ok in H as (p1 & _ & H). apply bind_ok in H as (w1 & H1 & H). apply ra_calm in H1. apply rma_calm in H.
    eapply calm_trans; [|eapply calm_trans; [exact H1 | exact H]]. apply store_calm.
  Qed.
  Lemma maxit_setting (v : setting A) s s' : apply_setting v s = Ok s' -> s_maxit s' = match v with SetMaxIter x => x | _ => s_maxit s end.
  Proof. destruct v; cbn; intros H; inv_all; try (injection H as <-); subst; reflexivity. Qed.
  Lemma maxit_settings : forall vs s s', foldM (fun s v => apply_setting v s) vs s = Ok s' -> s_maxit s' = s_maxit s \/ In (SetMaxIter (s_maxit s')) vs.
  Proof.
    induction vs as [|v vs IH]; intros s s' H; cbn in H; [injection H as <-; auto|]. apply bind_ok in H as (s1 & H1 & H). apply maxit_setting in H1. apply IH in H as [H|H]; [|right; now right].
    rewrite H, H1. destruct v; auto. right. left. reflexivity.
  Qed.
  Lemma phase_frame s s' : change_phase s = Ok s' ->
    s_c s' = s_c s /\ s_steps s' = s_steps s /\ s_cons s' = s_cons s /\ s_phase s' = S (s_phase s) /\ s_eq s' = s_eq s /\ s_running s' = s_running s /\ s_rows s' = s_rows s /\ s_out s' = s_out s /\
    w_agents (s_w s') = w_agents (s_w s) /\ w_pools (s_w s') = w_pools (s_w s) /\ w_idle (s_w s') = w_idle (s_w s) /\
    (s_maxit s' = s_maxit s \/ exists l, In l (c_multi (s_c s)) /\ In (SetMaxIter (s_maxit s')) l).
  Proof.
    intros H. unfold change_phase in H. apply bind_ok in H as (w1 & H1 & H). cbn [s_w set_phase s_phase s_c] in H1, H.
    set (vs := phase_settings (S (s_phase s)) (c_multi (s_c s))) in *. apply bind_ok in H as (s2 & H2 & H). apply bind_ok in H as (w2 & H3 & H). injection H as <-.
    apply (rel_foldM calm calm_refl calm_trans (fun w => w)) in H1; [|intros; eapply unrank_frame; eassumption].
    apply (rel_foldM calm calm_refl calm_trans (fun w => w)) in H3; [|intros; eapply rerank_frame; eassumption].
    assert (SM := maxit_settings _ _ _ H2). assert (SH := foldM_settings_shape _ _ _ H2). decompose [and] SH. clear SH. destruct H1 as (a1 & a2 & a3 & a4), H3 as (b1 & b2 & b3 & b4).
    assert (SM' : s_maxit s2 = s_maxit s \/ exists l, In l (c_multi (s_c s)) /\ In (SetMaxIter (s_maxit s2)) l).
    { destruct SM as [E|E]; [left; exact E|right]. unfold vs, phase_settings in E. apply in_flat_map in E as (l & J1 & J2). exists l. split; [assumption|]. destruct (nth_error l _) eqn:E'; [|contradiction].
      destruct J2 as [<-|[]]. eapply nth_error_In; eassumption. }
    cbn [s_w set_w s_c s_steps s_cons s_phase s_eq s_running s_rows s_out set_phase] in *.
    destruct vs; cbn [set_piv s_w set_w s_c s_steps s_cons s_phase s_eq s_running s_rows s_out s_maxit]; repeat (split; [congruence|]); assumption.
  Qed.

  (** what a call of step() does to the fields that count *)
  Lemma step_shape ch s s' : sim_step so ch s = Ok s' ->
    s_c s' = s_c s /\ s_rows s' = s_rows s ++ [(s_steps s, s_w s)] /\ keys (w_agents (s_w s')) = keys (w_agents (s_w s)) /\
    (((s_maxit s <= Z.of_nat (s_steps s))%Z /\ s_steps s' = s_steps s /\ s_cons s' = s_cons s /\ s_phase s' = s_phase s /\ s_eq s' = s_eq s /\ s_running s' = false /\ s_maxit s' = s_maxit s /\
        s_w s' = s_w s /\ s_out s' = s_out s ++ [mkFinal (s_w s) (has_converged s)]) \/
     ((Z.of_nat (s_steps s) < s_maxit s)%Z /\ s_steps s' = S (s_steps s) /\
      (s_cons s' = 0 \/ s_cons s' = S (s_cons s) /\ quiet so (ch, s)) /\
      ((s_eq s' = s_eq s /\ s_running s' = s_running s /\ s_out s' = s_out s /\ s_phase s' = s_phase s /\ s_maxit s' = s_maxit s /\ params (s_w s') = params (s_w s)) \/
       (s_eq s' = s_eq s ++ [(Z.of_nat (s_steps s) - c_itac (s_c s))%Z] /\ s_cons s' = S (s_cons s) /\ (c_itac (s_c s) <= Z.of_nat (s_cons s'))%Z /\
         ((S (s_phase s) < c_phases (s_c s) /\ s_running s' = s_running s /\ s_out s' = s_out s /\ s_phase s' = S (s_phase s) /\
             (s_maxit s' = s_maxit s \/ exists l, In l (c_multi (s_c s)) /\ In (SetMaxIter (s_maxit s')) l)) \/
          (c_phases (s_c s) <= S (s_phase s) /\ s_running s' = false /\ s_out s' = s_out s ++ [mkFinal (s_w s') true] /\ s_phase s' = s_phase s /\ s_maxit s' = s_maxit s /\ params (s_w s') = params (s_w s))))))).
  Proof.
    intros H. apply sim_step_cases in H as [(L & ->)|(L & w & Hw & H)].
    - cbn. repeat (split; [reflexivity|]). left. repeat (split; [reflexivity || assumption|]). reflexivity.
    - unfold schedule_step in Hw. apply bind_ok in Hw as (evs & Hev & Hw). apply events_frame in Hw as (P1 & P2 & P3).
      assert (Q : w_idle w = true -> quiet so (ch, s)).
      { intros E evs1 evs2 w1 Hr H1. rewrite Hev in Hr. injection Hr as ->. exact (proj1 (P3 E evs1 evs2 w1 eq_refl H1)). }
      destruct H as [(Ei & ->)|[(Ei & Lc & ->)|[(Ei & Lc & Lp & s4 & H4 & ->)|(Ei & Lc & Lp & ->)]]].
      + cbn -[quiet Z.of_nat]. repeat (split; [reflexivity || assumption|]). right. repeat (split; [reflexivity || assumption|]). split; [now left|]. left. repeat (split; [reflexivity|]). exact P1.
      + cbn -[quiet Z.of_nat]. repeat (split; [reflexivity || assumption|]). right. repeat (split; [reflexivity || assumption|]). split; [right; split; [reflexivity | exact (Q Ei)]|]. left. repeat (split; [reflexivity|]). exact P1.
      + apply phase_frame in H4 as (F1 & F2 & F3 & F4 & F5 & F6 & F7 & F8 & F9 & F10 & F11 & F12). unfold idle_again. cbn [s_c set_w s_rows s_w w_agents with_idle s_steps s_cons s_eq s_running s_out s_phase s_maxit].
        rewrite F1, F2, F3, F4, F5, F6, F7, F8, F9. cbn -[quiet Z.of_nat]. repeat (split; [reflexivity || assumption|]). right. repeat (split; [reflexivity || assumption|]). split; [right; split; [reflexivity | exact (Q Ei)]|]. right.
        split; [reflexivity|]. split; [reflexivity|]. split; [assumption|]. left. split; [assumption|]. repeat (split; [reflexivity|]). exact F12.
      + cbn -[quiet Z.of_nat]. repeat (split; [reflexivity || assumption|]). right. repeat (split; [reflexivity || assumption|]). split; [right; split; [reflexivity | exact (Q Ei)]|]. right.
        split; [reflexivity|]. split; [reflexivity|]. split; [assumption|]. right. split; [assumption|]. split; [reflexivity|]. split; [|repeat (split; [reflexivity|]); exact P1].
        unfold has_converged. cbn -[Z.of_nat]. destruct (Z.leb_spec (c_itac (s_c s)) (Z.of_nat (S (s_cons s)))); [reflexivity | lia].
  Qed.

  Lemma rounds_shape s0 l s : rounds so s0 l s -> s_c s = s_c s0 /\ keys (w_agents (s_w s)) = keys (w_agents (s_w s0)) /\ s_steps s = s_steps s0 + length l /\
    map (fun x => s_steps (snd x)) l = seq (s_steps s0) (length l) /\ s_rows s = s_rows s0 ++ map (fun x => (s_steps (snd x), s_w (snd x))) l /\
    forall x, In x l -> s_c (snd x) = s_c s0.
  Proof.
    induction 1 as [|l ch s s' R (I1 & I2 & I3 & I4 & I5 & I6) L H].
    - cbn. rewrite app_nil_r. repeat (split; [reflexivity || lia|]). intros x [].
    - apply step_shape in H as (H1 & H2 & H3 & [(C & _)|(_ & C & _)]); [lia|]. rewrite app_length, !map_app, seq_app. cbn. split; [congruence|]. split; [congruence|]. split; [lia|].
      split; [rewrite I4, I3; reflexivity|]. split; [rewrite H2, I5, <- app_assoc; reflexivity|]. intros x J. apply in_app_iff in J as [J|[<-|[]]]; [auto | assumption].
  Qed.
  Lemma rounds_reach s0 l s : rounds so s0 l s -> reach so s0 s.
  Proof. induction 1; [constructor | econstructor; eassumption]. Qed.

  (** the loop ends *)
  Lemma max_In x l : In x l -> forall y, (x <= fold_right Z.max y l)%Z.
  Proof. induction l as [|z l IH]; cbn; [easy|]. intros [->|J] y; [lia|]. specialize (IH J y). lia. Qed.
  Lemma max_base l y : (y <= fold_right Z.max y l)%Z.
  Proof. induction l; cbn; lia. Qed.
  Lemma max_mono l y y' : (y' <= fold_right Z.max y l)%Z -> (fold_right Z.max y' l <= fold_right Z.max y l)%Z.
  Proof. induction l as [|z l IH]; cbn; intros H; [assumption|]. assert (Z.max z (fold_right Z.max y' l) <= Z.max z (Z.max y' (fold_right Z.max y l)))%Z; [|lia]. assert (fold_right Z.max y' l <= Z.max y' (fold_right Z.max y l))%Z; [|lia]. clear. induction l; cbn; lia. Qed.
  Lemma bound_step ch s s' : sim_step so ch s = Ok s' -> (maxit_bound s' <= maxit_bound s)%Z.
  Proof.
    intros H. apply step_shape in H as (E & _ & _ & C). unfold maxit_bound. rewrite E. apply max_mono.
    assert (K : s_maxit s' = s_maxit s \/ exists l, In l (c_multi (s_c s)) /\ In (SetMaxIter (s_maxit s')) l) by (decompose [and or] C; auto).
    destruct K as [->|(l & J1 & J2)]; [apply max_base|]. apply max_In. apply in_flat_map. exists l. split; [assumption|]. apply in_flat_map. eexists. split; [exact J2|]. now left.
  Qed.
  Lemma run_loop_ends ch : forall fuel s, (maxit_bound s - Z.of_nat (s_steps s) + 1 < Z.of_nat fuel)%Z -> exists n r, run so ch n s r /\ run_loop so ch fuel s = r /\ n <= fuel.
  Proof.
    induction fuel as [|fuel IH]; intros s Hf.
    - assert (L : loops s = false). { unfold loops. assert (B := max_base (flat_map (fun vs => flat_map (fun v => match v with SetMaxIter x => [x] | _ => [] end) vs) (c_multi (s_c s))) (s_maxit s)). fold (maxit_bound s) in B. destruct (Z.leb_spec (Z.of_nat (s_steps s)) (s_maxit s)); [lia | reflexivity]. }
      exists 0, (Ok s). split; [now constructor|]. split; [|lia]. cbn. fold (loops s). now rewrite L.
    - cbn. fold (loops s). destruct (loops s) eqn:L; [|exists 0, (Ok s); split; [now constructor | split; [reflexivity | lia]]].
      destruct (sim_step so (ch (s_steps s)) s) as [s'|e] eqn:E; cbn [bind]; [|exists 1, (Err e); split; [now constructor | split; [reflexivity | lia]]].
      assert (B := bound_step _ _ _ E). assert (C := step_shape _ _ _ E). destruct C as (_ & _ & _ & [(_ & _ & _ & _ & _ & R & _)|(_ & St & _)]).
      + exists 1, (Ok s'). split; [|split; [|lia]].
        * eapply run_next; [assumption | eassumption|]. constructor. unfold loops. now rewrite R, andb_false_r.
        * destruct fuel; cbn; rewrite R, andb_false_r; reflexivity.
      + destruct (IH s') as (n & r & R1 & R2 & R3); [lia|]. exists (S n), r. split; [eapply run_next; eassumption|]. split; [assumption | lia].
  Qed.
End Run.

Section Finish.
  Context {A : Arith}.
  Variable so : list nat -> list nat -> list nat.
  Implicit Types s : sim A.

  Lemma fields_maxit (g : args A) M l x : g_maxit g = Single M -> In (Multi l) (fields g) -> In (SetMaxIter x) l -> False.
  Proof.
    intros E J Jx. unfold fields in J. rewrite E in J. unfold pv_map in J. cbn in J.
    repeat match goal with J : _ \/ _ |- _ => destruct J as [J|J] end; try contradiction; try discriminate;
      match type of J with match ?f with _ => _ end = _ => destruct f; [discriminate|] end; injection J as <-; apply in_map_iff in Jx as (? & ? & _); discriminate.
  Qed.
  Lemma init_one_maxit g profiles stakes costs s0 M : init g profiles stakes costs = Ok s0 -> g_maxit g = Single M -> s_maxit s0 = M /\ one_maxit s0.
  Proof.
    intros H E. apply init_fresh in H. split.
    - assert (J := fs_maxit _ _ _ _ _ H). rewrite E in J. destruct J as [->|[]]. reflexivity.
    - intros l v J1 J2 x ->. apply (fs_multi _ _ _ _ _ H) in J1. eapply fields_maxit; eassumption.
  Qed.
  Lemma init_nodup g profiles stakes costs s0 : init g profiles stakes costs = Ok s0 -> NoDup (keys (w_agents (s_w s0))).
  Proof. intros H. apply init_fresh in H. rewrite (fs_keys _ _ _ _ _ H). apply seq_NoDup. Qed.
  Lemma rounds_maxit s0 l s : one_maxit s0 -> rounds so s0 l s -> s_maxit s = s_maxit s0.
  Proof.
    intros O R. induction R as [|l ch s s' R IH L H]; [reflexivity|]. rewrite <- IH. assert (Ec : s_c s = s_c s0) by apply (rounds_shape _ _ _ _ R).
    apply step_shape in H as (_ & _ & _ & C). rewrite Ec in C.
    assert (K : s_maxit s' = s_maxit s \/ exists l, In l (c_multi (s_c s0)) /\ In (SetMaxIter (s_maxit s')) l) by (decompose [and or] C; auto).
    destruct K as [K|(l' & J1 & J2)]; [assumption|]. exfalso. exact (O l' _ J1 J2 _ eq_refl).
  Qed.
  (** how a finished run looks *)
  Definition stopped_by_bound s0 l s := s_steps s = length l /\ Z.of_nat (length l) = s_maxit s0 /\
    (exists s1, rounds so s0 l s1 /\ s_w s1 = s_w s /\ s_cons s1 = s_cons s /\ s_phase s1 = s_phase s) /\ s_rows s = map (fun x => (s_steps (snd x), s_w (snd x))) l ++ [(s_steps s, s_w s)].
  Definition stopped_by_convergence s0 l s := (Z.of_nat (length l) <= s_maxit s0)%Z /\ rounds so s0 l s /\ (c_itac (s_c s) <= Z.of_nat (s_cons s))%Z /\ c_phases (s_c s) <= S (s_phase s) /\
    s_rows s = map (fun x => (s_steps (snd x), s_w (snd x))) l.
  Lemma run_finishes ch n s r : run so ch n s r -> forall s0 l s', r = Ok s' -> one_maxit s0 -> s_steps s0 = 0 -> s_rows s0 = [] -> rounds so s0 l s -> s_running s = true -> s_out s = [] ->
    (Z.of_nat (length l) <= s_maxit s0)%Z ->
    exists l', s_running s' = false /\ s_out s' = [mkFinal (s_w s') (has_converged s')] /\ (stopped_by_bound s0 l' s' \/ stopped_by_convergence s0 l' s').
  Proof.
    induction 1 as [s L|s e L E|n s s1 r L E R IH]; intros s0 l s' Er Om St Ro Rd Run Out Len.
    - exfalso. unfold loops in L. rewrite Run, andb_true_r in L. destruct (rounds_shape _ _ _ _ Rd) as (_ & _ & Es & _). rewrite (rounds_maxit _ _ _ Om Rd) in L. rewrite Es, St in L. apply Z.leb_gt in L. cbn in L. lia.
    - discriminate.
    - destruct (rounds_shape _ _ _ _ Rd) as (Ec & _ & Es & _ & Er' & _). rewrite St in Es. rewrite Ro in Er'. cbn in Es, Er'. assert (Em := rounds_maxit _ _ _ Om Rd).
      assert (C := step_shape _ _ _ _ E). destruct C as (C1 & C2 & _ & [(B1 & B2 & B3 & B4 & B5 & B6 & B7 & B8 & B9)|(B1 & B2 & B3 & [(D1 & D2 & D3 & D4 & D5 & D6)|(D1 & D2 & D3 & [(F1 & F2 & F3 & F4)|(F1 & F2 & F3 & F4 & F5 & F6)])])]).
      + assert (s1 = s' /\ n = 0) as [-> ->].
        { inversion R as [t Lt Et1 Et2|t e Lt|n' t t' r' Lt]; subst; unfold loops in Lt; rewrite B6, andb_false_r in Lt; try discriminate. match goal with H : Ok _ = Ok _ |- _ => injection H as H end. auto. }
        exists l. split; [assumption|]. split; [rewrite B9, Out, B8; unfold has_converged; now rewrite C1, B3|].
        left. split; [congruence|]. split; [rewrite Em, Es in B1; lia|]. split; [exists s; auto|]. rewrite C2, B2, B8, Er'. reflexivity.
      + apply (IH s0 (l ++ [(ch (s_steps s), s)]) s'); auto; [econstructor; eassumption | congruence | congruence | rewrite app_length; cbn; rewrite Em in B1; lia].
      + apply (IH s0 (l ++ [(ch (s_steps s), s)]) s'); auto; [econstructor; eassumption | congruence | congruence | rewrite app_length; cbn; rewrite Em in B1; lia].
      + assert (s1 = s' /\ n = 0) as [-> ->].
        { inversion R as [t Lt Et1 Et2|t e Lt|n' t t' r' Lt]; subst; unfold loops in Lt; rewrite F2, andb_false_r in Lt; try discriminate. match goal with H : Ok _ = Ok _ |- _ => injection H as H end. auto. }
        exists (l ++ [(ch (s_steps s), s)]). split; [assumption|]. split.
        { rewrite F3, Out. cbn. do 2 f_equal. symmetry. unfold has_converged. rewrite C1. apply Z.leb_le. assumption. }
        right. split; [rewrite app_length; cbn; rewrite Em in B1; lia|]. split; [econstructor; eassumption|]. rewrite C1. split; [assumption|]. split; [congruence|]. rewrite C2, Er', map_app. reflexivity.
  Qed.
End Finish.

(** ** C29 *)
(** run_model calls step() finitely often, whatever the parameters and however often they change, and returns what the loop returns; no loop in it runs on forever. *)
Theorem C29_run_model_terminates : forall (A : Arith) so g profiles stakes costs (s0 : sim A) ch, init g profiles stakes costs = Ok s0 ->
  exists n, run so ch n s0 (run_model so ch s0) /\ (Z.of_nat n <= Z.max 0 (maxit_bound s0) + 2)%Z.
Proof.
  intros A so g profiles stakes costs s0 ch H. apply init_fresh in H. unfold run_model.
  assert (E : initialize_pool_id_seq s0 = s0).
  { assert (F := fs_idseq _ _ _ _ _ H). destruct s0 as [c w ? ? ? ? ? ? ? ? ? ? ? ?]. unfold initialize_pool_id_seq, set_w. cbn in *. destruct w. cbn in *. now subst. }
  rewrite E. destruct (run_loop_ends so ch (S (S (Z.to_nat (maxit_bound s0)))) s0) as (n & r & R1 & R2 & R3); [lia|]. exists n. rewrite R2. split; [assumption | lia].
Qed.
Theorem C29_no_round_hangs : forall (A : Arith) so g profiles stakes costs (s0 : sim A) ch, init g profiles stakes costs = Ok s0 -> (forall i, fair (ch i)) ->
  run_model so ch s0 <> Err OutOfFuel.
Proof.
  intros A so g profiles stakes costs s0 ch H F. destruct (C29_run_model_terminates A so g profiles stakes costs s0 ch H) as (n & R & _). apply init_nodup in H.
  revert R. generalize (run_model so ch s0). intros r R. induction R as [s L|s e L E|n s s1 r L E R IH]; [discriminate| |].
  - rewrite <- E. apply ends_sim_step; auto.
  - apply IH. apply step_shape in E as (_ & _ & E & _). now rewrite E.
Qed.
(** With a fixed max_iterations M: at most M rounds; at the end running is false and the results were exported exactly once; a run of fewer than M rounds ended by
    convergence in the last phase. *)
Theorem C29_run_model_stops : forall (A : Arith) so g profiles stakes costs (s0 s : sim A) ch M, init g profiles stakes costs = Ok s0 -> g_maxit g = Single M -> (0 <= M)%Z ->
  run_model so ch s0 = Ok s ->
  s_running s = false /\ (Z.of_nat (s_steps s) <= M)%Z /\ s_out s = [mkFinal (s_w s) (has_converged s)] /\
  ((Z.of_nat (s_steps s) < M)%Z -> has_converged s = true /\ c_phases (s_c s0) <= S (s_phase s)).
Proof.
  intros A so g profiles stakes costs s0 s ch M H HM HP Hr. destruct (C29_run_model_terminates A so g profiles stakes costs s0 ch H) as (n & R & _).
  destruct (init_one_maxit _ _ _ _ _ _ H HM) as [Em Om]. apply init_fresh in H. destruct (fs_start _ _ _ _ _ H) as (S1 & S2 & S3 & S4 & S5 & S6 & S7 & S8 & S9).
  destruct (run_finishes so ch n s0 _ R s0 [] s Hr Om S1 S7 (rounds_start so s0) S6 S8) as (l & J1 & J2 & J3); [cbn; lia|].
  split; [assumption|]. destruct J3 as [(K1 & K2 & K3)|(K1 & K2 & K3 & K4 & K5)].
  - split; [rewrite K1; lia|]. split; [assumption|]. rewrite K1. lia.
  - destruct (rounds_shape _ _ _ _ K2) as (Ec & _ & Es & _). rewrite S1 in Es. cbn in Es. split; [rewrite Es; lia|]. split; [assumption|]. intros _. rewrite Ec in *. split; [|assumption]. unfold has_converged. rewrite Ec. now apply Z.leb_le.
Qed.

(** ** C34 *)
(** one row per executed round, row i describing the state after i rounds, plus the final state when the iteration bound ended the run *)
Theorem C34_one_row_per_round : forall (A : Arith) so g profiles stakes costs (s0 s : sim A) ch M, init g profiles stakes costs = Ok s0 -> g_maxit g = Single M -> (0 <= M)%Z ->
  run_model so ch s0 = Ok s ->
  exists l s1, rounds so s0 l s1 /\ s_w s1 = s_w s /\ s_steps s = length l /\ map (fun x => s_steps (snd x)) l = seq 0 (length l) /\
    ((Z.of_nat (length l) = M /\ s_rows s = map (fun x => (s_steps (snd x), s_w (snd x))) l ++ [(length l, s_w s)]) \/
     (has_converged s = true /\ c_phases (s_c s0) <= S (s_phase s) /\ s_rows s = map (fun x => (s_steps (snd x), s_w (snd x))) l)).
Proof.
  intros A so g profiles stakes costs s0 s ch M H HM HP Hr. destruct (C29_run_model_terminates A so g profiles stakes costs s0 ch H) as (n & R & _).
  destruct (init_one_maxit _ _ _ _ _ _ H HM) as [Em Om]. apply init_fresh in H. destruct (fs_start _ _ _ _ _ H) as (S1 & S2 & S3 & S4 & S5 & S6 & S7 & S8 & S9).
  destruct (run_finishes so ch n s0 _ R s0 [] s Hr Om S1 S7 (rounds_start so s0) S6 S8) as (l & J1 & J2 & J3); [cbn; lia|].
  destruct J3 as [(K1 & K2 & (s1 & K3 & K4 & K5 & K6) & K7)|(K1 & K2 & K3 & K4 & K5)].
  - exists l, s1. destruct (rounds_shape _ _ _ _ K3) as (Ec & _ & Es & Eq & _). rewrite S1 in Eq. repeat (split; [assumption|]).
    left. split; [congruence | now rewrite <- K1].
  - exists l, s. destruct (rounds_shape _ _ _ _ K2) as (Ec & _ & Es & Eq & _). rewrite S1 in Eq, Es. repeat (split; [assumption || reflexivity|]).
    right. rewrite Ec in *. split; [|now split]. unfold has_converged. rewrite Ec. now apply Z.leb_le.
Qed.

(** ** C30 *)
Section Idle.
  Context {A : Arith}.
  Variable so : list nat -> list nat -> list nat.
  Implicit Types s : sim A.
  (** the last rounds of a history *)
  Definition ends_with {X} (l l2 : list X) : Prop := exists l1, l = l1 ++ l2.
  Lemma quiet_tail s0 l s : s_cons s0 = 0 -> rounds so s0 l s -> exists l2, ends_with l l2 /\ length l2 = s_cons s /\ Forall (quiet so) l2.
  Proof.
    intros E R. induction R as [|l ch s s' R (l2 & (l1 & ->) & I2 & I3) L H]; [exists []; split; [now exists []|]; split; [now rewrite E | constructor]|].
    apply step_shape in H as (_ & _ & _ & [(C & _)|(_ & _ & [C|(C & Q)] & _)]); [lia| |].
    - exists []. split; [eexists; now rewrite app_nil_r|]. split; [now rewrite C | constructor].
    - exists (l2 ++ [(ch, s)]). split; [exists l1; now rewrite app_assoc|]. split; [rewrite app_length, C; cbn; lia|]. apply Forall_app. split; [assumption | now constructor].
  Qed.
  Lemma phase_zero s0 l s : s_phase s0 = 0 -> rounds so s0 l s -> s_phase s = 0 -> params (s_w s) = params (s_w s0) /\ forall x, In x l -> s_phase (snd x) = 0 /\ params (s_w (snd x)) = params (s_w s0).
  Proof.
    intros E R. induction R as [|l ch s s' R IH L H]; intros P; [split; [reflexivity | intros x []]|].
    apply step_shape in H as (_ & _ & _ & [(C & _)|(_ & _ & _ & C)]); [lia|].
    assert (s_phase s = 0 /\ params (s_w s') = params (s_w s)) as [P0 Pp] by (decompose [and or] C; split; congruence).
    destruct (IH P0) as [I1 I2]. split; [congruence|]. intros x J. apply in_app_iff in J as [J|[<-|[]]]; auto.
  Qed.
End Idle.

(** An entry of equilibrium_steps is made only after at least iterations_after_convergence consecutive rounds in which no agent changed its strategy at any point; the entry
    is the number of the last round before them.  In the first phase (so always, if there is only one) these rounds had the parameters of the phase. *)
Theorem C30_equilibrium_follows_idle_rounds : forall (A : Arith) so g profiles stakes costs (s0 s s' : sim A) l ch e, init g profiles stakes costs = Ok s0 -> rounds so s0 l s ->
  sim_step so ch s = Ok s' -> s_eq s' = s_eq s ++ [e] ->
  e = (Z.of_nat (s_steps s) - g_itac g)%Z /\
  exists l2, ends_with (l ++ [(ch, s)]) l2 /\ (g_itac g <= Z.of_nat (length l2))%Z /\ Forall (quiet so) l2 /\
    (s_phase s = 0 -> forall x, In x l2 -> s_phase (snd x) = 0 /\ params (s_w (snd x)) = params (s_w s)).
Proof.
  intros A so g profiles stakes costs s0 s s' l ch e H R St Eq. apply init_fresh in H. destruct (fs_start _ _ _ _ _ H) as (S1 & S2 & S3 & S4 & S5 & S6 & S7 & S8 & S9).
  destruct (rounds_shape _ _ _ _ R) as (Ec & _). assert (Ne : forall X (l : list X) x, l <> l ++ [x]) by (intros X l0 x E; apply (f_equal (@length X)) in E; rewrite app_length in E; cbn in E; lia).
  assert (SH := step_shape _ _ _ _ St). destruct SH as (C1 & _ & _ & [(_ & _ & _ & _ & C & _)|(L & _ & _ & [(C & _)|(C & D & F & _)])]); try (rewrite Eq in C; symmetry in C; now apply Ne in C).
  rewrite Eq in C. apply app_inv_head in C. injection C as ->. rewrite Ec, S9. split; [reflexivity|].
  assert (R' : rounds so s0 (l ++ [(ch, s)]) s') by (econstructor; eassumption). destruct (quiet_tail so s0 _ _ S2 R') as (l2 & (l1 & I1) & I2 & I3).
  exists l2. split; [now exists l1|]. split; [rewrite I2, <- S9, <- Ec; exact F|]. split; [assumption|]. intros P x J.
  destruct (phase_zero so s0 l s S3 R P) as [P1 P2]. assert (J' : In x (l ++ [(ch, s)])) by (rewrite I1; apply in_app_iff; now right).
  apply in_app_iff in J' as [J'|[<-|[]]]; [|auto]. destruct (P2 x J') as [Q1 Q2]. split; [assumption | congruence].
Qed.
(** 'Equilibrium reached: Yes' likewise; for runs with a single phase *)
Theorem C30_reported_equilibrium_single_phase : forall (A : Arith) so g profiles stakes costs (s0 s s' : sim A) l ch f, init g profiles stakes costs = Ok s0 -> rounds so s0 l s ->
  (forall p, In p (fields g) -> exists v, p = Single v) -> sim_step so ch s = Ok s' -> s_out s' = s_out s ++ [f] -> f_converged f = true ->
  f_world f = s_w s' /\
  exists l2, ends_with (if (Z.of_nat (s_steps s) <? s_maxit s)%Z then l ++ [(ch, s)] else l) l2 /\ (g_itac g <= Z.of_nat (length l2))%Z /\ Forall (quiet so) l2 /\
    forall x, In x l2 -> params (s_w (snd x)) = params (s_w s').
Proof.
  intros A so g profiles stakes costs s0 s s' l ch f H R Sg St Eo Cv. apply init_fresh in H. destruct (fs_start _ _ _ _ _ H) as (S1 & S2 & S3 & S4 & S5 & S6 & S7 & S8 & S9).
  assert (Ph : c_phases (s_c s0) = 1).
  { apply (fs_phases _ _ _ _ _ H). destruct (c_multi (s_c s0)) as [|l0 ls] eqn:E; [reflexivity|]. exfalso. assert (J : In l0 (c_multi (s_c s0))) by (rewrite E; now left).
    apply (fs_multi _ _ _ _ _ H) in J. apply Sg in J as (v & J). discriminate. }
  assert (PZ : forall l s, rounds so s0 l s -> s_phase s = 0).
  { clear - S3 Ph. intros l s R. induction R as [|l ch s s' R IH L H]; [assumption|]. destruct (rounds_shape _ _ _ _ R) as (Ec & _). apply step_shape in H as (_ & _ & _ & C). rewrite Ec, Ph in C. decompose [and or] C; try congruence; lia. }
  destruct (rounds_shape _ _ _ _ R) as (Ec & _). assert (Ne : forall X (l : list X) x, l <> l ++ [x]) by (intros X l0 x E; apply (f_equal (@length X)) in E; rewrite app_length in E; cbn in E; lia).
  assert (SH := step_shape _ _ _ _ St). destruct SH as (C1 & _ & _ & [(L & _ & D & _ & _ & _ & _ & W & C)|(L & _ & _ & [(_ & _ & C & _)|(_ & D & F & [(_ & _ & C & _)|(_ & _ & C & _)])])]); try (rewrite Eo in C; symmetry in C; now apply Ne in C).
  - destruct (Z.ltb_spec (Z.of_nat (s_steps s)) (s_maxit s)); [lia|]. rewrite Eo in C. apply app_inv_head in C. injection C as ->. cbn in Cv. split; [now rewrite W|].
    destruct (quiet_tail so s0 _ _ S2 R) as (l2 & (l1 & I1) & I2 & I3). exists l2. split; [now exists l1|]. unfold has_converged in Cv. apply Z.leb_le in Cv. split; [rewrite I2, <- S9, <- Ec; exact Cv|].
    split; [assumption|]. intros x J. rewrite W. destruct (phase_zero so s0 l s S3 R (PZ _ _ R)) as [P1 P2]. destruct (P2 x) as [_ Q2]; [rewrite I1; apply in_app_iff; now right | congruence].
  - destruct (Z.ltb_spec (Z.of_nat (s_steps s)) (s_maxit s)); [|lia]. rewrite Eo in C. apply app_inv_head in C. injection C as ->. split; [reflexivity|].
    assert (R' : rounds so s0 (l ++ [(ch, s)]) s') by (econstructor; eassumption). destruct (quiet_tail so s0 _ _ S2 R') as (l2 & (l1 & I1) & I2 & I3). exists l2. split; [now exists l1|].
    split; [rewrite I2, <- S9, <- Ec; exact F|]. split; [assumption|]. intros x J. destruct (phase_zero so s0 _ s' S3 R' (PZ _ _ R')) as [P1 P2]. destruct (P2 x) as [_ Q2]; [rewrite I1; apply in_app_iff; now right | congruence].
Qed.

(** ** Concrete runs *)
Section Walk.
  Context {A : Arith}.
  Fixpoint walk (n : nat) (l : list (choices * sim A)) (s : sim A) : res (list (choices * sim A) * sim A) :=
    match n with
    | O => Ok (l, s)
    | S n => if (Z.of_nat (s_steps s) <? s_maxit s)%Z then let! s' := sim_step so_id no_choice s in walk n (l ++ [(no_choice, s)]) s' else Err Dangling
    end.
  Lemma walk_rounds s0 n : forall l s l' s', rounds so_id s0 l s -> walk n l s = Ok (l', s') -> rounds so_id s0 l' s'.
  Proof.
    induction n as [|n IH]; intros l s l' s' R H; cbn in H; [injection H as <- <-; assumption|]. destruct (Z.ltb_spec (Z.of_nat (s_steps s)) (s_maxit s)); [|discriminate].
    apply bind_ok in H as (s1 & H1 & H). eapply IH; [|exact H]. econstructor; eassumption.
  Qed.
  Lemma walk_check (i : res (sim A)) n (c : list (choices * sim A) -> sim A -> bool) : match (let! s0 := i in walk n [] s0) with Ok (l, s) => c l s | Err _ => false end = true ->
    exists s0 l s, i = Ok s0 /\ rounds so_id s0 l s /\ c l s = true.
  Proof.
    destruct i as [s0|e]; cbn [bind]; [|discriminate]. destruct (walk n [] s0) as [[l s]|e] eqn:E; [|discriminate]. intros H. exists s0, l, s. split; [reflexivity|]. split; [|assumption].
    eapply walk_rounds; [constructor | eassumption].
  Qed.
End Walk.

(** one abstainer; [k] and max_iterations may change *)
Definition lazy_args (k : pv Qc) (maxit : pv Z) (itac : Z) : args QcA :=
  mkArgs (A := QcA) (Single 1%Z) k (Single (Q2Qc (3#10))) (Single 0%Qc) (Single (Q2Qc (1#1000000))) maxit (Single (Q2Qc 2)) (Single Sequential) (Single true) 0 0%Qc false itac.
Notation lazy_init k maxit itac := (init (lazy_args k maxit itac) [Abstainer] [1%Qc] [1%Qc]).

(** If max_iterations may differ between phases, a run can stop with running = True and without exporting anything. *)
Theorem C29_changing_max_iterations_refuted : exists (g : args QcA) profiles stakes costs (s0 s : sim QcA), init g profiles stakes costs = Ok s0 /\ run_model so_id (fun _ => no_choice) s0 = Ok s /\
  s_running s = true /\ s_out s = [] /\ (s_maxit s < Z.of_nat (s_steps s))%Z.
Proof.
  exists (lazy_args (Single 1%Qc) (Multi [10; 0]%Z) 1), [Abstainer], [1%Qc], [1%Qc].
  assert (H : match (let! s0 := lazy_init (Single 1%Qc) (Multi [10; 0]%Z) 1 in run_model so_id (fun _ => no_choice) s0) with
    Ok s => s_running s && (match s_out s with [] => true | _ => false end) && (s_maxit s <? Z.of_nat (s_steps s))%Z | Err _ => false end = true) by (vm_compute; reflexivity).
  destruct (lazy_init (Single 1%Qc) (Multi [10; 0]%Z) 1) as [s0|e]; cbn [bind] in H; [|discriminate]. destruct (run_model so_id (fun _ => no_choice) s0) as [s|e] eqn:E; [|discriminate].
  apply andb_true_iff in H as [H H3]. apply andb_true_iff in H as [H1 H2]. exists s0, s. split; [reflexivity|]. split; [assumption|]. split; [assumption|]. split; [now destruct (s_out s) | now apply Z.ltb_lt].
Qed.

(** In later phases equilibrium is declared too early: the count of idle rounds goes on from the previous phase.  Here the second phase consists of one round, although two idle
    rounds are required. *)
Theorem C30_later_phases_refuted : exists (g : args QcA) profiles stakes costs (s0 s s' : sim QcA) l e, init g profiles stakes costs = Ok s0 /\ rounds so_id s0 l s /\
  sim_step so_id no_choice s = Ok s' /\ s_eq s' = s_eq s ++ [e] /\
  (Z.of_nat (length (filter (fun x => Nat.eqb (s_phase (snd x)) (s_phase s)) (l ++ [(no_choice, s)]))) < g_itac g)%Z.
Proof.
  exists (lazy_args (Multi [1%Qc; Q2Qc 2]) (Single 10%Z) 2), [Abstainer], [1%Qc], [1%Qc].
  destruct (walk_check (lazy_init (Multi [1%Qc; Q2Qc 2]) (Single 10%Z) 2) 2 (fun l s => Nat.eqb (s_phase s) 1 && forallb (fun x => Nat.eqb (s_phase (snd x)) 0) l &&
     match s_eq s with [-1]%Z => match sim_step so_id no_choice s with Ok s' => match s_eq s' with [-1; 0]%Z => true | _ => false end | Err _ => false end | _ => false end)) as (s0 & l & s & H0 & R & H); [vm_compute; reflexivity|].
  cbv beta in H. apply andb_true_iff in H as [H H3]. apply andb_true_iff in H as [H1 H2]. apply Nat.eqb_eq in H1. rewrite forallb_forall in H2.
  destruct (s_eq s) as [|[| |[]] [|]] eqn:Eq; try discriminate. destruct (sim_step so_id no_choice s) as [s'|] eqn:St; [|discriminate]. destruct (s_eq s') as [|[| |[]] [|[| |] [|]]] eqn:Eq'; try discriminate.
  exists s0, s, s', l, 0%Z. split; [exact H0|]. split; [exact R|]. split; [exact St|]. split; [rewrite Eq, Eq'; reflexivity|]. cbn [g_itac lazy_args]. rewrite H1, filter_app.
  assert (F : filter (fun x => Nat.eqb (s_phase (snd x)) 1) l = []).
  { clear - H2. induction l as [|x l IH]; cbn; [reflexivity|]. assert (E := H2 x (or_introl eq_refl)). apply Nat.eqb_eq in E. rewrite E. cbn. apply IH. intros y J. apply H2. now right. }
  rewrite F. cbn. rewrite H1. reflexivity.
Qed.

(** The final report can claim an equilibrium although no round was executed under the last parameters, and an agent would move: a0 rises after the first equilibrium, at the moment
    the iteration bound is reached. *)
Definition late_args : args QcA :=
  mkArgs (A := QcA) (Single 4%Z) (Single (Q2Qc 2)) (Multi [Q2Qc (3#10); Q2Qc 3]) (Single 0%Qc) (Single (Q2Qc (1#1000000))) (Single 4%Z) (Single (Q2Qc 2)) (Single Sequential) (Single true) 0 0%Qc false 2.
Theorem C30_reported_equilibrium_refuted : exists (g : args QcA) profiles stakes costs (s0 s s' : sim QcA) l f a w', init g profiles stakes costs = Ok s0 /\ rounds so_id s0 l s /\
  sim_step so_id no_choice s = Ok s' /\ s_out s' = [f] /\ f_converged f = true /\ f_world f = s_w s' /\
  (forall x, In x l -> s_phase (snd x) <> s_phase s) /\ agent_step so_id (s_w s') a = Ok w' /\ strategies w' <> strategies (s_w s').
Proof.
  exists late_args, demo_profiles, demo_stakes, demo_costs.
  set (pools (w : world QcA) := map (fun e => length (match snd e with Some st => s_owned st | None => [] end)) (strategies w)).
  destruct (walk_check (init late_args demo_profiles demo_stakes demo_costs) 4 (fun l s => Nat.eqb (s_phase s) 1 && forallb (fun x => Nat.eqb (s_phase (snd x)) 0) l && (s_maxit s <=? Z.of_nat (s_steps s))%Z &&
     (match s_out s with [] => true | _ => false end) && has_converged s && match agent_step so_id (s_w s) 1 with Ok w' => negb (Nat.eqb (nth 1 (pools w') 0) (nth 1 (pools (s_w s)) 0)) | Err _ => false end)) as (s0 & l & s & H0 & R & H).
  { vm_compute. reflexivity. }
  cbv beta in H. apply andb_true_iff in H as [H H6]. apply andb_true_iff in H as [H H5]. apply andb_true_iff in H as [H H4]. apply andb_true_iff in H as [H H3]. apply andb_true_iff in H as [H1 H2].
  apply Nat.eqb_eq in H1. rewrite forallb_forall in H2. destruct (s_out s) eqn:Out; [|discriminate]. destruct (agent_step so_id (s_w s) 1) as [w'|] eqn:St; [|discriminate].
  eexists s0, s, _, l, _, 1, w'. split; [exact H0|]. split; [exact R|]. unfold sim_step. cbn [s_maxit s_steps set_rows]. rewrite H3. split; [reflexivity|].
  cbn [wrap_up set_running set_rows set_out s_out s_w]. rewrite Out. split; [reflexivity|]. split; [exact H5|]. split; [reflexivity|].
  split; [intros x J E; specialize (H2 x J); apply Nat.eqb_eq in H2; congruence|]. split; [exact St|]. intros E. unfold pools in H6. rewrite E, Nat.eqb_refl in H6. discriminate.
Qed.

(** A run to which the theorems of this file apply: the demo run stops after four rounds, with a row for each and the parameters of the theorems' hypotheses. *)
Example C29_C34_instance : exists s0 s, demo_init = Ok s0 /\ run_model so_id (fun _ => no_choice) s0 = Ok s /\ s_steps s = 4 /\ length (s_rows s) = 4 /\ s_eq s = [1%Z] /\
  s_running s = false /\ map f_converged (s_out s) = [true].
Proof.
  assert (H : match (let! s0 := demo_init in run_model so_id (fun _ => no_choice) s0) with
    Ok s => Nat.eqb (s_steps s) 4 && Nat.eqb (length (s_rows s)) 4 && match s_eq s with [1%Z] => true | _ => false end && negb (s_running s) && match map f_converged (s_out s) with [true] => true | _ => false end
    | Err _ => false end = true) by (vm_compute; reflexivity).
  destruct demo_init as [s0|e]; cbn [bind] in H; [|discriminate]. destruct (run_model so_id (fun _ => no_choice) s0) as [s|e] eqn:E; [|discriminate].
  apply andb_true_iff in H as [H H5]. apply andb_true_iff in H as [H H4]. apply andb_true_iff in H as [H H3]. apply andb_true_iff in H as [H1 H2].
  exists s0, s. split; [reflexivity|]. split; [assumption|]. split; [now apply Nat.eqb_eq|]. split; [now apply Nat.eqb_eq|].
  split; [destruct (s_eq s) as [|[|[]|] [|]]; try discriminate; reflexivity|]. split; [now destruct (s_running s)|]. destruct (map f_converged (s_out s)) as [|[] [|]]; try discriminate; reflexivity.
Qed.
