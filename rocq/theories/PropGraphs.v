(** C80: the figures of an execution. *)
From Coq Require Import ZArith QArith Qcanon List Bool Arith Lia String Ascii.
From Verif Require Import Num Py QcTac Rewards SortedKeyList World Stakeholder Sched Sim Init Reach ListFacts Eval SimInv Spec PropInit Demo PropSched Ends Frame PropRun Reporters Export Main PropMain PropMove Helper Viz Graphs.
Import ListNotations.
Open Scope num_scope.
Open Scope nat_scope.

(** ** What a step does to the marks *)
Section Marks.
  Context {A : Arith}.
  Variable so : list nat -> list nat -> list nat.
  Implicit Types s : sim A.

  (** some parameter has a value for every phase *)
  Definition phases_used (c : conf A) : Prop := 1 < c_phases c -> exists l, In l (c_multi c) /\ List.length l = c_phases c.
  Lemma fields_used : forall fs s s', foldM set_field fs s = Ok s' -> phases_used (s_c s) -> phases_used (s_c s').
  Proof.
    induction fs as [|f fs IH]; intros s s' H U; cbn in H; [injection H as <-; assumption|]. apply bind_ok in H as (s1 & H1 & H). eapply IH; [exact H|]. clear IH H.
    apply set_field_shape in H1 as (_ & _ & [(B1 & B2 & _)|(l & -> & B1 & B2)]); unfold phases_used in *; rewrite B1, B2; [exact U|]. intros L.
    destruct (Nat.le_gt_cases (c_phases (s_c s)) (List.length l)) as [G|G].
    - exists l. rewrite in_app_iff. split; [right; now left | lia].
    - destruct U as (l' & J & E); [lia|]. exists l'. rewrite in_app_iff. split; [now left | lia].
  Qed.
  Lemma init_used g profiles stakes costs s0 : init g profiles stakes costs = Ok s0 -> phases_used (s_c s0).
  Proof.
    intros H. unfold init in H. apply bind_ok in H as (r0 & Hr & H). apply bind_ok in H as (s1 & Hs & H). apply bind_ok in H as (r1 & Hr1 & H). apply bind_ok in H as (ags & Ha & H). apply bind_ok in H as (total & Ht & H).
    match type of H with (if ?b then _ else _) = _ => destruct b end; [discriminate|]. apply bind_ok in H as ([ags' total'] & Hat & H). injection H as <-. cbn [s_c].
    apply fields_used in Hs; [exact Hs|]. unfold phases_used. cbn. lia.
  Qed.

  Lemma n_setting (v : setting A) s s' : apply_setting v s = Ok s' -> s_n s' = match v with Sim.SetN x => x | _ => s_n s end /\ s_piv s' = s_piv s /\ s_graphs s' = match v with SetGraphs x => x | _ => s_graphs s end.
  Proof. destruct v; cbn; intros H; inv_all; try (injection H as <-); subst; auto. Qed.
  Lemma n_settings : forall vs s s', foldM (fun s v => apply_setting v s) vs s = Ok s' -> s_piv s' = s_piv s /\ (s_n s' = s_n s \/ exists x, In (Sim.SetN x) vs) /\ (s_graphs s' = s_graphs s \/ exists x, In (SetGraphs x) vs).
  Proof.
    induction vs as [|v vs IH]; intros s s' H; cbn in H; [injection H as <-; auto|]. apply bind_ok in H as (s1 & H1 & H). apply n_setting in H1 as (N1 & P1 & G1). apply IH in H as (P2 & N2 & G2).
    split; [congruence|]. split.
    - destruct N2 as [N2|(x & J)]; [|right; exists x; now right]. rewrite N2, N1. destruct v; auto. right. exists v. now left.
    - destruct G2 as [G2|(x & J)]; [|right; exists x; now right]. rewrite G2, G1. destruct v; auto. right. exists v. now left.
  Qed.
  (** n and generate_graphs are the same in all phases *)
  Definition one_n (c : conf A) : Prop := forall l v, In l (c_multi c) -> In v l -> forall x, v <> Sim.SetN x.
  Definition one_graphs (c : conf A) : Prop := forall l v, In l (c_multi c) -> In v l -> forall x, v <> SetGraphs x.
  Lemma change_marks s s' : change_phase s = Ok s' -> (one_n (s_c s) -> s_n s' = s_n s) /\ (one_graphs (s_c s) -> s_graphs s' = s_graphs s) /\
    ((exists l, In l (c_multi (s_c s)) /\ S (s_phase s) < List.length l) -> s_piv s' = s_piv s ++ [s_steps s']).
  Proof.
    intros H. unfold change_phase in H. apply bind_ok in H as (w1 & _ & H). cbn [s_w set_phase s_phase s_c] in H. apply bind_ok in H as (s2 & H2 & H). apply bind_ok in H as (w2 & _ & H). injection H as <-.
    assert (In_ph : forall v, In v (phase_settings (S (s_phase s)) (c_multi (s_c s))) -> exists l, In l (c_multi (s_c s)) /\ In v l).
    { intros v J. unfold phase_settings in J. apply in_flat_map in J as (l & J1 & J2). exists l. split; [assumption|]. destruct (nth_error l _) as [v'|] eqn:En; [|contradiction]. destruct J2 as [->|[]]. eapply nth_error_In; eassumption. }
    apply n_settings in H2 as (P & Hn & Hg). cbn [s_piv s_n s_graphs set_w set_phase] in *. split; [|split].
    - intros O. destruct Hn as [Hn|(x & J)]; [destruct (phase_settings _ _); exact Hn|]. apply In_ph in J as (l & J1 & J2). exfalso. exact (O l _ J1 J2 x eq_refl).
    - intros O. destruct Hg as [Hg|(x & J)]; [destruct (phase_settings _ _); exact Hg|]. apply In_ph in J as (l & J1 & J2). exfalso. exact (O l _ J1 J2 x eq_refl).
    - intros (l & J & L). destruct (phase_settings (S (s_phase s)) (c_multi (s_c s))) as [|v vs] eqn:E.
      + exfalso. apply nth_error_Some in L. destruct (nth_error l (S (s_phase s))) as [v|] eqn:En; [|congruence]. assert (Q : In v (phase_settings (S (s_phase s)) (c_multi (s_c s)))); [|rewrite E in Q; contradiction].
        unfold phase_settings. apply in_flat_map. exists l. rewrite En. split; [assumption | now left].
      + cbn [s_piv set_piv set_w s_steps]. now rewrite P.
  Qed.
  (** one call of step(): the phase changes and the round is marked, or neither *)
  Lemma step_piv ch s s' : sim_step so ch s = Ok s' -> phases_used (s_c s) -> (one_n (s_c s) -> s_n s' = s_n s) /\ (one_graphs (s_c s) -> s_graphs s' = s_graphs s) /\
    ((s_phase s' = s_phase s /\ s_piv s' = s_piv s) \/ (s_phase s' = S (s_phase s) /\ s_piv s' = s_piv s ++ [s_steps s'] /\ s_running s' = s_running s /\ s_steps s' = S (s_steps s))).
  Proof.
    intros H U. apply sim_step_cases in H as [(L & ->)|(L & w & Hw & [(Ei & ->)|[(Ei & Lc & ->)|[(Ei & Lc & Lp & s4 & H4 & ->)|(Ei & Lc & Lp & ->)]]])]; try (split; [reflexivity | split; [reflexivity | left; split; reflexivity]]).
    assert (F := phase_frame _ _ H4). destruct F as (F1 & F2 & F3 & F4 & F5 & F6 & _). apply change_marks in H4 as (C1 & C3 & C2). unfold idle_again. cbn [s_n s_graphs s_phase s_piv s_running s_steps set_w]. split; [exact C1|]. split; [exact C3|]. right.
    split; [exact F4|]. split; [|split; [exact F6 | exact F2]]. apply C2. cbn [s_c noted set_eq counted set_cons after_round set_steps set_w collected set_rows s_phase] in *.
    destruct U as (l & J & E); [lia|]. exists l. split; [assumption | lia].
  Qed.
End Marks.

(** ** What is drawn *)
Section Spec.
  Context {A : Arith}.
  (** the phase in which a round is: the number of marks at or before it *)
  Definition marks_up_to (r : nat) (l : list nat) : nat := List.length (filter (fun p => p <=? r) l).
  (** [state_at]: [s'] is the state of the run after [r] rounds: the one the data collector saw in its [r]-th row, in the phase given by the marks *)
  Definition state_at (e : env A) (s0 s : sim A) (r : nat) (s' : sim A) : Prop :=
    reach (e_sets e) s0 s' /\ s_steps s' = r /\ nth_error (s_rows s) r = Some (r, s_w s') /\ s_phase s' = marks_up_to r (s_piv s) /\ s_n s' = s_n s.
  Definition file_name (eid : string) (i : Z) : string :=
    match reporter_name i with Some name => (eid ++ "-" ++ name ++ ".png")%string | None => ""%string end.
  (** what the figure of metric [i] shows *)
  Definition depicts (e : env A) (eid : string) (s0 s : sim A) (i : Z) (f : figure A) : Prop :=
    match f with
    | LineChart file points equilibria changes =>
        i <> 26%Z /\ file = file_name eid i /\
        List.length points = List.length (s_rows s) /\
        (forall r v, nth_error points r = Some v -> exists s', state_at e s0 s r s' /\ metric e i s' = Ok v) /\
        equilibria = s_eq s /\
        map fst changes = s_piv s /\ (forall r v, In (r, v) changes -> nth_error points r = Some v)
    | AreaChart file rounds layers =>
        i = 26%Z /\ file = ("poolDynamics-" ++ eid ++ ".png")%string /\
        rounds = seq 1 (List.length (s_rows s) - 1) /\ List.length layers = Z.to_nat (s_n s) /\
        (forall a layer, nth_error layers a = Some layer -> List.length layer = List.length rounds /\
           forall j r x, nth_error rounds j = Some r -> nth_error layer j = Some x ->
             exists s' l, state_at e s0 s r s' /\ metric e i s' = Ok (MNums l) /\ nth_error l a = Some x)
    end.
End Spec.

Section Kinds.
  Context {A : Arith}.
  Lemma add_at_length (l l' : list (T A)) i x : list_add_at l i x = Ok l' -> List.length l' = List.length l.
  Proof.
    unfold list_add_at. intros H. apply bind_ok in H as (v & H1 & H). apply Ok_inj in H. subst l'. apply of_option_ok in H1. assert (i < List.length l) by (apply nth_error_Some; congruence).
    rewrite app_length, firstn_length. change (List.length ((v +' x)%num :: skipn (S i) l)) with (S (List.length (skipn (S i) l))). rewrite skipn_length. lia.
  Qed.
  Lemma stakes_by_agent_length n (w : world A) l : pool_stakes_by_agent n w = Ok l -> List.length l = Z.to_nat n.
  Proof.
    unfold pool_stakes_by_agent. intros H. apply bind_ok in H as (ps & _ & H). replace (Z.to_nat n) with (List.length (repeat (zero : T A) (Z.to_nat n))) by apply repeat_length. revert H. generalize (repeat (zero : T A) (Z.to_nat n)).
    induction ps as [|p ps IH]; intros l0 H; cbn [foldM] in H; [injection H as <-; reflexivity|]. apply bind_ok in H as (l1 & H1 & H). apply IH in H. apply add_at_length in H1. congruence.
  Qed.
  Definition kind (n : Z) (i : Z) (v : mvalue A) : Prop :=
    match v with
    | MNums l => i = 26%Z /\ List.length l = Z.to_nat n
    | MRows _ => i = 21%Z
    | MDict _ => i = 27%Z
    | _ => i <> 21%Z /\ i <> 26%Z /\ i <> 27%Z
    end.
  Lemma metric_kind (e : env A) i s v : metric e i s = Ok v -> kind (s_n s) i v /\ (1 <= i <= 30)%Z.
  Proof.
    unfold metric. intros H.
    destruct i as [|p|p]; try discriminate; do 5 (try match goal with p : positive |- _ => destruct p end; try discriminate);
    unfold as_num, as_nat, as_int in H; repeat (apply bind_ok in H as (? & ? & H)); injection H as <-; cbn [kind]; (split; [|lia]);
    try (repeat split; discriminate); try reflexivity. split; [reflexivity|]. eapply stakes_by_agent_length; eassumption.
  Qed.
End Kinds.

Section Loop.
  Context {A : Arith}.
  Variables (e : env A) (rng : option Z) (cols : list Z) (s0 : sim A) (M : Z).
  Hypothesis (U : phases_used (s_c s0)) (N : one_n (s_c s0)) (G : one_graphs (s_c s0)) (X : one_maxit s0).
  Notation so := (e_sets e).
  (** what has been collected so far fits the marks made so far *)
  Definition collected_ok (p : progress A) : Prop :=
    let s := pg_sim p in
    reach so s0 s /\ s_c s = s_c s0 /\ s_n s = s_n s0 /\ s_graphs s = s_graphs s0 /\ s_maxit s = M /\ List.length (s_piv s) = s_phase s /\ List.length (s_rows s) = List.length (pg_rows p) /\
    (forall r row, nth_error (pg_rows p) r = Some row -> exists s', state_at e s0 s r s' /\ Forall2 (fun i v => metric e i s' = Ok v) cols row) /\
    if s_running s then List.length (s_rows s) = s_steps s /\ (Z.of_nat (s_steps s) <= M)%Z /\ (forall r, In r (s_piv s) -> r <= s_steps s)
    else s_rows s <> [] /\ (forall r, In r (s_piv s) -> r < List.length (s_rows s)).
  Lemma marks_app r l x : r < x -> marks_up_to r (l ++ [x]) = marks_up_to r l.
  Proof. intros L. unfold marks_up_to. rewrite filter_app, app_length. cbn [filter]. destruct (Nat.leb_spec x r); [lia|]. cbn. lia. Qed.
  Lemma marks_all r l : (forall x, In x l -> x <= r) -> marks_up_to r l = List.length l.
  Proof.
    intros H. unfold marks_up_to. f_equal. induction l as [|x l IH]; [reflexivity|]. cbn [filter]. destruct (Nat.leb_spec x r) as [|Gt]; [f_equal; apply IH; intros; apply H; now right|].
    specialize (H x (or_introl eq_refl)). lia.
  Qed.
  Lemma full_step_collects p p' : collected_ok p -> s_running (pg_sim p) = true -> full_step e rng cols p = Ok p' -> collected_ok p'.
  Proof.
    destruct p as [s rows fs]. unfold collected_ok, full_step. cbn [pg_sim pg_rows pg_files]. intros (R & Ec & En & Eg & Em & Lp & Lr & Rows & Run) Rn H. rewrite Rn in Run. destruct Run as (Ls & Lm & Pm).
    apply bind_ok in H as (row & Hrow & H). apply bind_ok in H as (s' & Hs & H). apply mapM_ok in Hrow.
    assert (P' : pg_sim p' = s' /\ pg_rows p' = rows ++ [row]).
    { destruct (Nat.ltb _ _); [apply bind_ok in H as (f & _ & H)|]; injection H as <-; split; reflexivity. }
    destruct P' as [-> ->]. clear H. assert (R' : reach so s0 s') by (econstructor; eassumption).
    assert (SP := step_piv _ _ _ _ Hs). rewrite Ec in SP. destruct (SP U) as (Hn & Hg & Hp). clear SP. assert (SH := step_shape _ _ _ _ Hs). destruct SH as (S1 & S2 & _ & S4).
    assert (Mx : s_maxit s' = M).
    { assert (Q : s_maxit s' = s_maxit s \/ exists l, In l (c_multi (s_c s)) /\ In (SetMaxIter (s_maxit s')) l) by (decompose [and or] S4; auto). destruct Q as [Q|(l & J1 & J2)]; [congruence|].
      exfalso. rewrite Ec in J1. exact (X l _ J1 J2 _ eq_refl). }
    assert (St : state_at e s0 s' (List.length rows) s).
    { split; [assumption|]. split; [congruence|]. split; [rewrite S2, nth_error_app2 by lia; rewrite Lr, Nat.sub_diag; cbn; congruence|]. split; [|rewrite Hn by assumption; reflexivity].
      rewrite <- Lp. rewrite <- Lr, Ls. destruct Hp as [[_ ->]|(_ & -> & _ & Es)]; [|rewrite marks_app by lia]; symmetry; apply marks_all; assumption. }
    split; [assumption|]. split; [congruence|]. split; [rewrite Hn by assumption; assumption|]. split; [rewrite Hg by assumption; assumption|]. split; [assumption|].
    split; [destruct Hp as [[-> ->]|(-> & -> & _)]; [assumption | rewrite app_length; cbn; lia]|]. split; [rewrite S2, !app_length; cbn; lia|]. split.
    - intros r row' Gr. destruct (Nat.lt_ge_cases r (List.length rows)) as [L|L].
      + rewrite nth_error_app1 in Gr by assumption. destruct (Rows r row' Gr) as (t & (T1 & T2 & T3 & T4 & T5) & T6). exists t. split; [|assumption]. split; [assumption|]. split; [assumption|]. split; [rewrite S2, nth_error_app1 by lia; assumption|].
        split; [|rewrite Hn by assumption; assumption]. rewrite T4. destruct Hp as [[_ ->]|(_ & -> & _ & Es)]; [reflexivity | symmetry; apply marks_app; lia].
      + rewrite nth_error_app2 in Gr by assumption. destruct (r - List.length rows) as [|d] eqn:Ed; [|destruct d; discriminate]. cbn in Gr. injection Gr as <-. assert (r = List.length rows) as -> by lia. exists s. split; assumption.
    - destruct S4 as [(L & Es & _ & Ep & _ & Er & _)|(L & Es & _ & S5)].
      + rewrite Er, S2, app_length. cbn [List.length]. split; [now destruct (s_rows s)|]. intros r J. destruct Hp as [[_ Hp]|(Hp & _)]; [|lia]. rewrite Hp in J. specialize (Pm _ J). lia.
      + assert (Q : s_running s' = true \/ s_running s' = false /\ s_phase s' = s_phase s) by (rewrite <- Rn; decompose [and or] S5; auto). destruct Q as [Q|[Q Ep]]; rewrite Q, S2, app_length; cbn [List.length].
        * split; [lia|]. split; [lia|]. intros r J. destruct Hp as [[_ Hp]|(_ & Hp & _)]; rewrite Hp in J; [specialize (Pm _ J); lia|]. apply in_app_iff in J as [J|[<-|[]]]; [specialize (Pm _ J); lia | lia].
        * split; [now destruct (s_rows s)|]. intros r J. destruct Hp as [[_ Hp]|(Hp & _)]; [|lia]. rewrite Hp in J. specialize (Pm _ J). lia.
  Qed.
  Lemma full_loop_collects fuel : forall p p', collected_ok p -> full_loop e rng cols fuel p = Ok p' -> collected_ok p' /\ s_running (pg_sim p') = false.
  Proof.
    assert (D : forall p, collected_ok p -> ((Z.of_nat (s_steps (pg_sim p)) <=? s_maxit (pg_sim p))%Z && s_running (pg_sim p))%bool = false -> s_running (pg_sim p) = false).
    { intros p (_ & _ & _ & _ & Em & _ & _ & _ & Q) B. destruct (s_running (pg_sim p)); [|reflexivity]. rewrite andb_true_r in B. apply Z.leb_gt in B. lia. }
    induction fuel as [|fuel IH]; intros p p' C H; cbn [full_loop] in H; destruct (_ && _)%bool eqn:B; try discriminate; try (injection H as <-; split; [assumption | now apply D]).
    apply bind_ok in H as (p1 & H1 & H). apply andb_true_iff in B as [_ B]. eapply IH; [|exact H]. eapply full_step_collects; eassumption.
  Qed.
End Loop.

Section Draw.
  Context {A : Arith}.
  Variables (e : env A) (eid : string) (cols : list Z) (s0 : sim A) (M : Z) (p : progress A).
  Hypothesis (C : collected_ok e cols s0 M p) (S : s_running (pg_sim p) = false).
  Notation s := (pg_sim p).
  Notation rows := (pg_rows p).

  Lemma column_values j i : nth_error cols j = Some i -> exists data, column j rows = Ok data /\ List.length data = List.length (s_rows s) /\
    forall r v, nth_error data r = Some v -> exists s', state_at e s0 s r s' /\ metric e i s' = Ok v.
  Proof.
    intros J. destruct C as (_ & _ & _ & _ & _ & _ & Lr & Rows & _).
    assert (Q : forall r row, nth_error rows r = Some row -> exists v s', nth_error row j = Some v /\ state_at e s0 s r s' /\ metric e i s' = Ok v).
    { intros r row G. destruct (Rows r row G) as (s' & St & F). clear - J St F. revert j J. induction F as [|i' v cs row' Hv F IH]; intros [|j] J; cbn in J; try discriminate.
      - injection J as ->. exists v, s'. auto.
      - destruct (IH j J) as (v' & s'' & K). exists v', s''. exact K. }
    destruct (mapM_total (fun row => of_option IndexError (nth_error row j)) rows) as (data & E).
    { intros row J'. apply In_nth_error in J' as (r & G). destruct (Q r row G) as (v & _ & K & _). exists v. now rewrite K. }
    exists data. split; [exact E|]. apply mapM_ok in E. split; [rewrite Lr; clear - E; induction E; cbn; congruence|].
    intros r v G. assert (K : exists row, nth_error rows r = Some row /\ nth_error row j = Some v).
    { clear - E G. revert r G. induction E as [|row v' rs vs H F IH]; intros [|r] G; cbn in *; try discriminate; [injection G as ->; exists row; apply of_option_ok in H; auto | now apply IH]. }
    destruct K as (row & K1 & K2). destruct (Q r row K1) as (v' & s' & K3 & K4). exists s'. replace v with v' by congruence. exact K4.
  Qed.

  Definition pictured (i : Z) : bool := negb (i =? 21)%Z && negb (i =? 27)%Z.
  Lemma nth_tl {X} (l : list X) j : nth_error (tl l) j = nth_error l (Datatypes.S j).
  Proof. destruct l; [now destruct j | reflexivity]. Qed.
  Lemma graph_of_ok j i : rows <> [] -> nth_error cols j = Some i -> exists fs, graph_of eid rows (s_eq s) (s_piv s) j i = Ok fs /\ if pictured i then exists f, fs = [f] /\ depicts e eid s0 s i f else fs = [].
  Proof.
    intros Ne J. destruct (column_values j i J) as (data & E & L & V). unfold graph_of. rewrite E. cbn [bind]. destruct C as (_ & _ & _ & _ & _ & _ & Lr & _ & Pm). rewrite S in Pm. destruct Pm as [_ Pm].
    destruct data as [|v0 data]; [exfalso; apply Ne; destruct rows; [reflexivity | cbn in *; lia]|].
    destruct (V 0 v0 eq_refl) as (s1 & (_ & _ & _ & _ & Sn) & Mv). destruct (metric_kind e i s1 v0 Mv) as [K B].
    assert (exists name, reporter_name i = Some name) as (name & Nm).
    { unfold reporter_name. destruct (Z.leb_spec 1 i); [|lia]. destruct (nth_error reporter_names _) eqn:En; [eauto|]. apply nth_error_None in En. cbn in En. lia. }
    rewrite Nm. cbn [of_option bind].
    assert (Line : i <> 21%Z /\ i <> 26%Z /\ i <> 27%Z -> exists fs, (let! f := plot_line eid name (v0 :: data) (s_eq s) (s_piv s) in Ok [f]) = Ok fs /\ if pictured i then exists f, fs = [f] /\ depicts e eid s0 s i f else fs = []).
    { intros (K1 & K2 & K3). unfold plot_line. destruct (mapM_total (fun step => let! v := of_option KeyError (nth_error (v0 :: data) step) in Ok (step, v)) (s_piv s)) as (ch & Ec).
      { intros r Jr. apply Pm in Jr. rewrite <- L in Jr. apply nth_error_Some in Jr. destruct (nth_error (v0 :: data) r) as [v|]; [|congruence]. exists (r, v). reflexivity. }
      rewrite Ec. cbn [bind]. eexists. split; [reflexivity|]. unfold pictured. destruct (Z.eqb_spec i 21); [lia|]. destruct (Z.eqb_spec i 27); [lia|]. cbn [negb andb]. eexists. split; [reflexivity|]. cbn [depicts].
      split; [assumption|]. split; [unfold file_name; now rewrite Nm|]. split; [exact L|]. split; [exact V|]. split; [reflexivity|]. apply mapM_ok in Ec. clear - Ec. split.
      - induction Ec as [|r x l l' H F IH]; [reflexivity|]. cbn. apply bind_ok in H as (v & _ & H). injection H as <-. cbn. now f_equal.
      - intros r v Jr. induction Ec as [|r' x l l' H F IH]; [contradiction|]. destruct Jr as [->|Jr]; [|auto]. apply bind_ok in H as (v' & H & Eq). injection Eq as -> ->. now apply of_option_ok in H. }
    destruct v0; cbn [kind] in K; try (apply Line; exact K).
    - (* the layers *) destruct K as [-> Ln]. unfold plot_stack. set (l0 := l) in *.
      assert (Q : exists table, mapM (fun v => match v with MNums l => Ok l | _ => Err ValueError end) (MNums l0 :: data) = Ok table /\ List.length table = List.length (s_rows s) /\
        forall r l, nth_error table r = Some l -> List.length l = Z.to_nat (s_n s) /\ exists s', state_at e s0 s r s' /\ metric e 26 s' = Ok (MNums l)).
      { destruct (mapM_total (fun v => match v with MNums l => Ok l | _ => Err ValueError end) (MNums l0 :: data)) as (table & Et).
        { intros v Jv. apply In_nth_error in Jv as (r & G). destruct (V r v G) as (s' & _ & Mv'). destruct (metric_kind e 26 s' v Mv') as [K' _]. destruct v; cbn [kind] in K'; try lia. eauto. }
        exists table. split; [exact Et|]. apply mapM_ok in Et. split; [rewrite <- L; clear - Et; induction Et; cbn; congruence|].
        intros r l' G. assert (K : nth_error (MNums l0 :: data) r = Some (MNums l')).
        { clear - Et G. revert r G. induction Et as [|v t vs ts H F IH]; intros [|r] G; cbn in *; try discriminate; [injection G as ->; destruct v; try discriminate; injection H as ->; reflexivity | now apply IH]. }
        destruct (V r _ K) as (s' & St & Mv'). destruct (metric_kind e 26 s' _ Mv') as [[_ K'] _]. destruct St as (St1 & St2 & St3 & St4 & St5). split; [congruence|]. exists s'. split; [repeat split; assumption | exact Mv']. }
      destruct Q as (table & Et & Lt & Vt). rewrite Et. cbn [bind].
      assert (W : match table with l :: _ => List.length l | [] => 0 end = Z.to_nat (s_n s)).
      { destruct table as [|l' t']; [cbn in *; lia|]. now destruct (Vt 0 l' eq_refl) as [-> _]. }
      rewrite W. assert (B' : forallb (fun l => List.length l =? Z.to_nat (s_n s)) table = true).
      { apply forallb_forall. intros l' Jl. apply In_nth_error in Jl as (r & G). destruct (Vt r l' G) as [-> _]. apply Nat.eqb_refl. }
      rewrite B'. cbn [bind]. eexists. split; [reflexivity|]. cbn [pictured Z.eqb Pos.eqb negb andb]. eexists. split; [reflexivity|]. cbn [depicts].
      split; [reflexivity|]. split; [reflexivity|]. split; [now rewrite L|]. split; [now rewrite map_length, seq_length|].
      intros a layer Ga. assert (La : a < Z.to_nat (s_n s)). { apply (f_equal (fun x => match x with Some _ => true | None => false end)) in Ga. destruct (Nat.lt_ge_cases a (Z.to_nat (s_n s))); [assumption|]. exfalso.
        assert (nth_error (map (fun i : nat => map (fun l : list (T A) => nth i l zero) (tl table)) (seq 0 (Z.to_nat (s_n s)))) a = None) as Hn by (apply nth_error_None; rewrite map_length, seq_length; lia). rewrite Hn in Ga. discriminate. }
      rewrite nth_error_map in Ga. assert (Gs : nth_error (seq 0 (Z.to_nat (s_n s))) a = Some a) by (rewrite nth_error_nth' with (d := 0) by (rewrite seq_length; lia); rewrite seq_nth by lia; reflexivity). rewrite Gs in Ga. cbn [option_map] in Ga. injection Ga as <-.
      split; [rewrite map_length, seq_length; destruct table; cbn [tl List.length] in *; lia|].
      intros j' r x G1 G2. assert (r = Datatypes.S j').
      { assert (Lj : j' < List.length (MNums l0 :: data) - 1) by (rewrite <- (seq_length (List.length (MNums l0 :: data) - 1) 1); apply nth_error_Some; congruence). rewrite nth_error_nth' with (d := 0) in G1 by (rewrite seq_length; lia). rewrite seq_nth in G1 by lia. injection G1 as <-. lia. }
      subst r. rewrite nth_error_map, nth_tl in G2. destruct (nth_error table (Datatypes.S j')) as [l'|] eqn:Gt; [|discriminate]. cbn [option_map] in G2. injection G2 as <-.
      destruct (Vt _ _ Gt) as (Ll & s' & St & Mv'). exists s', l'. split; [assumption|]. split; [assumption|]. apply nth_error_nth'. lia.
    - subst i. eexists. split; reflexivity.
    - subst i. eexists. split; reflexivity.
  Qed.
End Draw.

(** ** The files *)
Lemma append_cancel a : forall x y, (a ++ x)%string = (a ++ y)%string -> x = y.
Proof. induction a as [|c a IH]; cbn; intros x y H; [assumption|]. injection H as H. auto. Qed.
Lemma names_differ : NoDup (map (fun n => n ++ ".png")%string reporter_names).
Proof. cbn [map reporter_names String.append]. repeat (constructor; [cbn [In]; intuition discriminate|]). constructor. Qed.
Lemma reporter_name_inj i i' : (1 <= i <= 30)%Z -> (1 <= i' <= 30)%Z -> forall eid, file_name eid i = file_name eid i' -> i = i'.
Proof.
  intros B B' eid. unfold file_name, reporter_name. destruct (Z.leb_spec 1 i); [|lia]. destruct (Z.leb_spec 1 i'); [|lia].
  assert (L : forall z, (1 <= z <= 30)%Z -> Z.to_nat (z - 1) < List.length reporter_names) by (intros; cbn; lia).
  destruct (nth_error reporter_names (Z.to_nat (i - 1))) as [n|] eqn:E; [|apply nth_error_None in E; specialize (L i B); lia].
  destruct (nth_error reporter_names (Z.to_nat (i' - 1))) as [n'|] eqn:E'; [|apply nth_error_None in E'; specialize (L i' B'); lia].
  intros H'. apply append_cancel in H'. cbn [String.append] in H'. injection H' as H'. assert (Z.to_nat (i - 1) = Z.to_nat (i' - 1)); [|lia].
  apply (proj1 (NoDup_nth_error (map (fun n => n ++ ".png")%string reporter_names)) names_differ); [rewrite map_length; apply L; assumption|]. rewrite !nth_error_map, E, E'. cbn [option_map]. now rewrite H'.
Qed.
(** the file of a metric *)
Definition saved_as (eid : string) (i : Z) : string := if (i =? 26)%Z then ("poolDynamics-" ++ eid ++ ".png")%string else file_name eid i.
Lemma saved_as_inj eid i i' : (forall t, eid <> String "p" t) -> (1 <= i <= 30)%Z -> (1 <= i' <= 30)%Z -> saved_as eid i = saved_as eid i' -> i = i'.
Proof.
  intros P B B'. assert (Q : forall z, (1 <= z <= 30)%Z -> ("poolDynamics-" ++ eid ++ ".png")%string <> file_name eid z).
  { intros z Bz. unfold file_name. destruct (reporter_name z) as [n|]; [|discriminate]. destruct eid as [|c t]; cbn [String.append]; [discriminate|]. intros H. injection H as <- _. now apply (P t). }
  unfold saved_as. destruct (Z.eqb_spec i 26), (Z.eqb_spec i' 26); intros H; try lia; [now apply Q in H | symmetry in H; now apply Q in H | eapply reporter_name_inj; eassumption].
Qed.
Lemma columns_NoDup ms : NoDup (columns ms).
Proof.
  unfold columns. assert (Q : forall l, NoDup l -> NoDup (fold_left (fun l i => if existsb (Z.eqb i) l then l else l ++ [i]) ms l)); [|apply Q; constructor].
  induction ms as [|m ms IH]; intros l N; cbn [fold_left]; [assumption|]. apply IH. destruct (existsb (Z.eqb m) l) eqn:E; [assumption|].
  apply Permutation.Permutation_NoDup with (m :: l); [apply Permutation.Permutation_cons_append|]. constructor; [|assumption]. intros J. assert (existsb (Z.eqb m) l = true); [|congruence]. apply existsb_exists. exists m. split; [assumption | apply Z.eqb_refl].
Qed.

Lemma positive_int_pos {A : Arith} (v : pyval A) z : positive_int v = Ok z -> (0 < z)%Z.
Proof. unfold positive_int. intros H. apply bind_ok in H as (i & _ & H). destruct (Z.leb_spec i 0); [discriminate|]. injection H as <-. assumption. Qed.
Lemma init_graphs {A : Arith} (g : args A) profiles stakes costs s0 b : init g profiles stakes costs = Ok s0 -> g_graphs g = Single b -> s_graphs s0 = b.
Proof.
  intros H E. unfold init in H. apply bind_ok in H as (r0 & Hr & H). apply bind_ok in H as (s1 & Hs & H). apply bind_ok in H as (r1 & Hr1 & H). apply bind_ok in H as (ags & Ha & H). apply bind_ok in H as (total & Ht & H).
  match type of H with (if ?b then _ else _) = _ => destruct b end; [discriminate|]. apply bind_ok in H as ([ags' total'] & Hat & H). injection H as <-. cbn [s_graphs].
  unfold fields in Hs. rewrite E in Hs. cbn [foldM pv_map] in Hs. repeat match type of Hs with (bind _ _ = _) => let s := fresh "t" in let E := fresh "E" in apply bind_ok in Hs as (s & E & Hs) end. injection Hs as <-.
  match goal with Q : set_field _ (Single (SetGraphs b)) = Ok _ |- _ => cbn in Q; injection Q as <-; reflexivity end.
Qed.
Lemma combine_seq {X} (l : list X) : forall k j x, In (j, x) (combine (seq k (List.length l)) l) -> nth_error l (j - k) = Some x /\ k <= j.
Proof.
  induction l as [|y l IH]; intros k j x J; cbn in J; [contradiction|]. destruct J as [J|J]; [injection J as -> ->; rewrite Nat.sub_diag; auto|].
  apply IH in J as [J L]. replace (j - k) with (S (j - S k)) by lia. split; [exact J | lia].
Qed.

(** C80.  Whatever the options: a run that comes to an end can be drawn.  There is exactly one figure for each chosen metric except the two that are tables (numbers 21 and 27),
    in the order of the metrics, each in a file of its own; [depicts] says what it shows: the value of the metric in the state after each round; a mark at each
    change of parameters, on the line; for metric 26 one layer per agent. *)
Theorem C80_every_run_can_be_drawn : forall (A : Arith) (e : env A) eid o oc, main e o = Ok oc -> o_graphs o = true -> (forall t, eid <> String "p" t) ->
  let s := pg_sim (oc_end oc) in
  exists s0 d figs, construct e (ac_seed (oc_args oc)) (oc_args oc) = Ok (s0, d) /\ s_rows s <> [] /\
    figures_of eid oc = Ok figs /\ NoDup (map figure_file figs) /\
    Forall2 (depicts e eid s0 s) (filter (fun i => negb (i =? 21)%Z && negb (i =? 27)%Z) (columns (ac_metrics (oc_args oc)))) figs.
Proof.
  intros A e eid o oc H Hg Hp s. unfold main in H. apply bind_ok in H as (ac & Hac & H). unfold execute in H. apply bind_ok in H as ([s0 d] & Hc & H). apply bind_ok in H as (p & Hl & H). injection H as <-.
  cbn [oc_end oc_args] in *. subst s. exists s0, d.
  assert (Sh : exists n M, g_n (ac_args ac) = Single n /\ g_maxit (ac_args ac) = Single M /\ (0 < M)%Z /\ g_graphs (ac_args ac) = Single true).
  { unfold parse in Hac. repeat (apply bind_ok in Hac as (? & ? & Hac)). injection Hac as <-. cbn [ac_args g_n g_maxit g_graphs]. rewrite Hg. do 2 eexists. split; [reflexivity|]. split; [reflexivity|]. split; [|reflexivity].
    match goal with Q : optional (o_maxit o) positive_int 2000%Z = Ok ?M |- _ => clear - Q; destruct (o_maxit o) as [v|]; cbn [optional] in Q; [|injection Q as <-; lia]; apply positive_int_pos in Q; exact Q end. }
  destruct Sh as (n & M & Gn & GM & PM & Gg). assert (Hi : exists profiles stakes costs, init (ac_args ac) profiles stakes costs = Ok s0).
  { unfold construct in Hc. repeat (apply bind_ok in Hc as (? & ? & Hc)). injection Hc as <- _. eauto. }
  destruct Hi as (profiles & stakes & costs & Hi). destruct (init_one_maxit _ _ _ _ _ _ Hi GM) as [Em Om]. assert (Us := init_used _ _ _ _ _ Hi). assert (FS := init_fresh _ _ _ _ _ Hi).
  destruct (fs_start _ _ _ _ _ FS) as (S1 & S2 & S3 & S4 & S5 & S6 & S7 & S8 & S9).
  assert (On : one_n (s_c s0)).
  { intros l v J1 J2 x ->. apply (fs_multi _ _ _ _ _ FS) in J1. unfold fields in J1. rewrite Gn in J1. cbn [pv_map In] in J1.
    decompose [or] J1; try contradiction; match goal with Q : _ = Multi l |- _ => revert Q end; try (intros; discriminate); match goal with |- pv_map ?f ?q = _ -> _ => destruct q; cbn; intros Q; try discriminate; injection Q as <- end; apply in_map_iff in J2 as (? & ? & ?); discriminate. }
  assert (Og : one_graphs (s_c s0)).
  { intros l v J1 J2 x ->. apply (fs_multi _ _ _ _ _ FS) in J1. unfold fields in J1. rewrite Gg in J1. cbn [pv_map In] in J1.
    decompose [or] J1; try contradiction; match goal with Q : _ = Multi l |- _ => revert Q end; try (intros; discriminate); match goal with |- pv_map ?f ?q = _ -> _ => destruct q; cbn; intros Q; try discriminate; injection Q as <- end; apply in_map_iff in J2 as (? & ? & ?); discriminate. }
  assert (I0 : initialize_pool_id_seq s0 = s0). { assert (Q := fs_idseq _ _ _ _ _ FS). unfold initialize_pool_id_seq. destruct s0 as [c [] ? ? ? ? ? ? ? ? ? ? ? ?]. cbn in *. now rewrite Q. }
  rewrite I0 in Hl. set (cols := columns (ac_metrics ac)) in *.
  assert (C0 : collected_ok e cols s0 M (mkProgress s0 [] [])).
  { unfold collected_ok. cbn [pg_sim pg_rows]. rewrite S1, S3, S5, S6, S7. cbn [List.length]. split; [constructor|]. do 6 (split; [reflexivity || assumption|]). split; [intros [|r] row G; discriminate|]. split; [reflexivity|]. split; [lia|]. intros r []. }
  destruct (full_loop_collects e (ac_seed ac) cols s0 M Us On Og Om _ _ _ C0 Hl) as [CC Rn].
  assert (Ne : s_rows (pg_sim p) <> [] /\ pg_rows p <> []).
  { assert (C1 := CC). destruct C1 as (_ & _ & _ & _ & _ & _ & Lr & _ & Q). rewrite Rn in Q. destruct Q as [Q _]. split; [assumption|]. intros E. rewrite E in Lr. destruct (s_rows (pg_sim p)); [now apply Q | discriminate]. }
  destruct Ne as [Ne1 Ne2]. assert (Gs : s_graphs (pg_sim p) = true). { destruct CC as (_ & _ & _ & -> & _). clear - Hi Gg. eapply init_graphs; eassumption. }
  unfold figures_of. cbn [oc_end oc_args]. rewrite Gs. fold cols. unfold export_graphs. destruct (pg_rows p) as [|row0 rest] eqn:Er; [contradiction|]. rewrite <- Er in *. clear row0 rest Er.
  assert (GO := graph_of_ok e eid cols s0 M p CC Rn). 
  destruct (mapM_total (fun '(j, i) => graph_of eid (pg_rows p) (s_eq (pg_sim p)) (s_piv (pg_sim p)) j i) (combine (seq 0 (List.length cols)) cols)) as (fss & Ef).
  { intros [j i] J. apply combine_seq in J as [J _]. rewrite Nat.sub_0_r in J. destruct (GO j i Ne2 J) as (fs & K & _). eauto. }
  rewrite Ef. cbn [bind]. exists (List.concat fss). split; [exact Hc|]. split; [assumption|]. split; [reflexivity|]. apply mapM_ok in Ef.
  assert (D : Forall2 (depicts e eid s0 (pg_sim p)) (filter (fun i => negb (i =? 21)%Z && negb (i =? 27)%Z) cols) (List.concat fss)).
  { assert (Q : forall cs k fs, Forall2 (fun x y => (let '(j, i) := x in graph_of eid (pg_rows p) (s_eq (pg_sim p)) (s_piv (pg_sim p)) j i) = Ok y) (combine (seq k (List.length cs)) cs) fs -> (forall j, nth_error cs j = nth_error cols (k + j)) ->
      Forall2 (depicts e eid s0 (pg_sim p)) (filter (fun i => negb (i =? 21)%Z && negb (i =? 27)%Z) cs) (List.concat fs)).
    { induction cs as [|c cs IH]; intros k fs F K; cbn [List.length seq combine] in F; inversion F as [|x y l l' F1 F2]; subst; [constructor|].
      assert (K0 := K 0). cbn in K0. rewrite Nat.add_0_r in K0. symmetry in K0. destruct (GO k c Ne2 K0) as (fs' & G1 & G2). assert (y = fs') by congruence. subst y.
      cbn [filter List.concat]. fold (pictured c) in *. assert (IH' : Forall2 (depicts e eid s0 (pg_sim p)) (filter (fun i => negb (i =? 21)%Z && negb (i =? 27)%Z) cs) (List.concat l')).
      { apply (IH (Datatypes.S k)); [assumption|]. intros j. specialize (K (Datatypes.S j)). cbn in K. now rewrite K, Nat.add_succ_r. }
      destruct (pictured c); [destruct G2 as (f & -> & Df); cbn [app]; constructor; assumption | subst fs'; exact IH']. }
    apply (Q cols 0); [exact Ef | reflexivity]. }
  split; [|exact D].
  assert (Fl : map figure_file (List.concat fss) = map (saved_as eid) (filter (fun i => negb (i =? 21)%Z && negb (i =? 27)%Z) cols)).
  { clear - D. induction D as [|i f l l' H F IH]; [reflexivity|]. cbn [map]. f_equal; [|exact IH]. unfold saved_as. destruct f; cbn [depicts figure_file] in *; destruct H as (K1 & K2 & _); destruct (Z.eqb_spec i 26); congruence. }
  rewrite Fl. assert (Nd : NoDup (filter (fun i => negb (i =? 21)%Z && negb (i =? 27)%Z) cols)) by (apply NoDup_filter, columns_NoDup).
  assert (Bd : forall i, In i cols -> (1 <= i <= 30)%Z).
  { intros i J. apply In_nth_error in J as (j & J). destruct CC as (_ & _ & _ & _ & _ & _ & Lr & Rows & _). destruct (pg_rows p) as [|row rest]; [contradiction|]. destruct (Rows 0 row eq_refl) as (s' & _ & F).
    clear - J F. revert j J. induction F as [|i' v l l' H F IH]; intros [|j] J; cbn in J; try discriminate; [injection J as ->; now apply metric_kind in H | eauto]. }
  assert (Bd' : forall i, In i (filter (fun i => negb (i =? 21)%Z && negb (i =? 27)%Z) cols) -> (1 <= i <= 30)%Z) by (intros i J; apply filter_In in J as [J _]; auto).
  clear - Nd Bd' Hp. induction Nd as [|i l Ni Nd IH]; [constructor|]. cbn [map]. constructor; [|apply IH; intros; apply Bd'; now right].
  intros J. apply in_map_iff in J as (i' & E & J). apply saved_as_inj in E; [subst; contradiction | assumption | apply Bd'; now right | apply Bd'; now left].
Qed.

(** ** The line 'Equilibrium reached' *)
Section Equilibrium.
  Context {A : Arith}.
  Variable so : list nat -> list nat -> list nat.
  Implicit Types s : sim A.
  (** in this round some agent adopted a new strategy (current_step_idle is False after it) *)
  Definition busy (x : choices * sim A) : Prop := let '(ch, s) := x in exists w, schedule_step so (c_sched (s_c s)) ch (s_w s) = Ok w /\ w_idle w = false.
  Lemma cons_steps s0 l s : s_cons s0 = 0 -> rounds so s0 l s -> s_cons s <= List.length l.
  Proof.
    intros E R. induction R as [|l ch s s' R IH L H]; [lia|]. rewrite app_length. cbn. apply step_shape in H as (_ & _ & _ & [(C & _)|(_ & _ & [C|[C _]] & _)]); lia.
  Qed.
  Lemma busy_before s0 l s : s_cons s0 = 0 -> s_eq s0 = [] -> rounds so s0 l s -> s_eq s = [] ->
    ((Z.of_nat (s_cons s) < c_itac (s_c s))%Z \/ s_cons s = 0) /\ (s_cons s = List.length l \/ exists x, nth_error l (List.length l - S (s_cons s)) = Some x /\ busy x).
  Proof.
    intros E E0 R. induction R as [|l ch s s' R IH L H]; intros Q; [rewrite E; cbn; auto|].
    apply sim_step_cases in H as [(C & _)|(_ & w & Hw & H)]; [lia|]. rewrite app_length. cbn [List.length].
    destruct H as [(Ei & ->)|[(Ei & Lc & ->)|[(Ei & Lc & Lp & s4 & H4 & ->)|(Ei & Lc & Lp & ->)]]].
    - split; [right; reflexivity|]. right. exists (ch, s). cbn [s_cons idle_again set_w set_cons]. split; [rewrite nth_error_app2 by lia; replace (List.length l + 1 - 1 - List.length l) with 0 by lia; reflexivity|]. exists w. now split.
    - split; [left; exact Lc|]. assert (Q0 : s_eq s = []) by exact Q. destruct (IH Q0) as [_ [I|(x & I & B)]]; cbn [s_cons idle_again set_w set_cons counted after_round].
      + left. lia.
      + right. exists x. split; [|assumption]. assert (List.length l - S (s_cons s) < List.length l) by (apply nth_error_Some; congruence). replace (List.length l + 1 - S (S (s_cons s))) with (List.length l - S (s_cons s)) by lia. rewrite nth_error_app1 by lia. exact I.
    - apply phase_frame in H4 as (_ & _ & _ & _ & F5 & _). unfold idle_again in Q. cbn [s_eq set_w] in Q. rewrite F5 in Q. cbn [s_eq noted set_eq] in Q. destruct (s_eq s); discriminate.
    - cbn [s_eq wrap_up set_out set_running noted set_eq] in Q. destruct (s_eq s); discriminate.
  Qed.
End Equilibrium.
(** The line is never further left than one round before the first, and it lies within the chart if iterations_after_convergence is not negative.  The first line of a run
    is at the last round in which an agent moved: all later rounds were idle (C30), so the state the line points at is the one before that last move. *)
Theorem C80_the_equilibrium_line_is_one_round_early : forall (A : Arith) so g profiles stakes costs (s0 s s' : sim A) l ch x, init g profiles stakes costs = Ok s0 -> rounds so s0 l s ->
  sim_step so ch s = Ok s' -> s_eq s' = s_eq s ++ [x] ->
  (-1 <= x)%Z /\ ((0 <= g_itac g)%Z -> (x < Z.of_nat (List.length (s_rows s')))%Z) /\
  ((0 < g_itac g)%Z -> s_eq s = [] -> (0 <= x)%Z -> exists y, nth_error l (Z.to_nat x) = Some y /\ s_steps (snd y) = Z.to_nat x /\ busy so y /\
     nth_error (s_rows s') (Z.to_nat x) = Some (Z.to_nat x, s_w (snd y))).
Proof.
  intros A so g profiles stakes costs s0 s s' l ch x H R St Eq. apply init_fresh in H. destruct (fs_start _ _ _ _ _ H) as (S1 & S2 & S3 & S4 & S5 & S6 & S7 & S8 & S9).
  destruct (rounds_shape _ _ _ _ R) as (Ec & _ & Es & Em & Er & _). rewrite S1 in Es. cbn in Es. assert (Ne : forall X (l : list X) x, l <> l ++ [x]) by (intros X l0 y E; apply (f_equal (@List.length X)) in E; rewrite app_length in E; cbn in E; lia).
  assert (Cs := cons_steps so s0 l s S2 R). assert (SH := step_shape _ _ _ _ St). destruct SH as (C1 & C2 & _ & [(_ & _ & _ & _ & C & _)|(L & _ & _ & [(C & _)|(C & D & F & _)])]); try (rewrite Eq in C; symmetry in C; now apply Ne in C).
  rewrite Eq in C. apply app_inv_head in C. injection C as ->. rewrite Ec, S9 in *. rewrite C2, app_length, Er, S7. cbn [app List.length]. rewrite map_length.
  split; [lia|]. split; [lia|]. intros P E0 Px. destruct (busy_before so s0 l s S2 S4 R E0) as [B1 B2]. rewrite Ec, S9 in B1.
  assert (Hc : Z.of_nat (S (s_cons s)) = g_itac g) by lia. destruct B2 as [B2|(y & B2 & B3)]; [lia|]. replace (Z.to_nat (Z.of_nat (s_steps s) - g_itac g)) with (List.length l - S (s_cons s)) by lia.
  assert (Lx : List.length l - S (s_cons s) < List.length l) by (apply nth_error_Some; congruence).
  assert (Sy : s_steps (snd y) = List.length l - S (s_cons s)).
  { apply (map_nth_error (fun x => s_steps (snd x))) in B2. rewrite Em, S1 in B2. rewrite nth_error_nth' with (d := 0) in B2 by (rewrite seq_length; lia). rewrite seq_nth in B2 by lia. injection B2 as B2. lia. }
  exists y. split; [exact B2|]. split; [exact Sy|]. split; [exact B3|]. rewrite nth_error_app1 by (rewrite map_length; lia). rewrite nth_error_map, B2. cbn [option_map]. now rewrite Sy.
Qed.

(** ** Concrete runs *)
Definition with_graphs (o : cmdline QcA) : cmdline QcA :=
  mkCmd (A := QcA) (o_n o) (o_k o) (o_a0 o) (o_scheme o) (o_weights o) (o_cost_min o) (o_cost_max o) (o_phi o) (o_order o) (o_abs o) (o_rel o) (o_source o) (o_pareto o) (o_inactive o) (o_known o) (o_itac o) (o_maxit o) (o_metrics o) true (o_seed o).
Definition drawn_cmd : cmdline QcA := with_graphs good_cmd.
Definition drawn_check (r : res (outcome QcA)) : bool :=
  match r with
  | Ok oc => match s_piv (pg_sim (oc_end oc)) with
             | r :: nil => match figures_of "7-demo" oc with
                           | Ok fs => Nat.eqb (List.length fs) 28 && existsb (fun f => match f with AreaChart _ rs ls => Nat.eqb (List.length ls) 4 && Nat.leb 3 (List.length rs) | _ => false end) fs &&
                                      existsb (fun f => match f with LineChart _ _ _ ((r', _) :: nil) => Nat.eqb r r' | _ => false end) fs
                           | Err _ => false
                           end
             | _ => false
             end
  | Err _ => false
  end.
Lemma drawn_run : drawn_check (main (demo_env (Some demo_stakes)) drawn_cmd) = true.
Proof. vm_compute. reflexivity. Qed.
(** a run with two phases and all thirty metrics: 28 figures, one mark, four layers *)
Example C80_instance : exists oc figs r, main (demo_env (Some demo_stakes)) drawn_cmd = Ok oc /\ o_graphs drawn_cmd = true /\ (forall t, "7-demo"%string <> String "p" t) /\ s_piv (pg_sim (oc_end oc)) = [r] /\
  figures_of "7-demo" oc = Ok figs /\ List.length figs = 28.
Proof.
  assert (B := drawn_run). destruct (main (demo_env (Some demo_stakes)) drawn_cmd) as [oc|] eqn:Em; [|discriminate B]. unfold drawn_check in B. destruct (s_piv (pg_sim (oc_end oc))) as [|r [|]] eqn:Ep; try discriminate B.
  destruct (figures_of "7-demo" oc) as [fs|] eqn:Ef; [|discriminate B]. apply andb_true_iff in B as [B _]. apply andb_true_iff in B as [B _]. apply Nat.eqb_eq in B.
  exists oc, fs, r. split; [reflexivity|]. split; [reflexivity|]. split; [discriminate|]. split; [exact Ep|]. split; [exact Ef | exact B].
Qed.

(** REFUTED: that the line is at the round in which the equilibrium was reached.  If nobody ever moves, main prints 'Reached equilibrium at step: [-1]' and the line is
    drawn at -1, left of the first round. *)
Definition still_cmd : cmdline QcA := with_graphs (demo_cmd 4 [2%Z] [Q2Qc (3#10)] 0 [0; 0; 1]%Qc (Q2Qc (1#1000)) (Q2Qc (1#2)) 0%Qc FromFile 0%Qc Sequential).
Definition still_check (r : res (outcome QcA)) : bool :=
  match r with
  | Ok oc => oc_equilibrium oc && match s_eq (pg_sim (oc_end oc)) with [x] => Z.eqb x (-1) | _ => false end
  | Err _ => false
  end.
Lemma still_run : still_check (main (demo_env (Some demo_stakes)) still_cmd) = true.
Proof. vm_compute. reflexivity. Qed.
Lemma main_args {A : Arith} (e : env A) o oc : main e o = Ok oc -> parse o = Ok (oc_args oc).
Proof.
  intros Em. unfold main in Em. apply bind_ok in Em as (ac & Ep & Em). unfold execute in Em. apply bind_ok in Em as ([s0 d] & _ & Em). apply bind_ok in Em as (p & _ & Em). apply Ok_inj in Em. subst oc. exact Ep.
Qed.
Lemma still_metrics ac : parse still_cmd = Ok ac -> columns (ac_metrics ac) = map Z.of_nat (seq 1 30).
Proof.
  assert (K : match parse still_cmd with Ok a => columns (ac_metrics a) = map Z.of_nat (seq 1 30) | Err _ => False end) by (vm_compute; reflexivity).
  intros Q. rewrite Q in K. exact K.
Qed.
Lemma line_at_minus_one (e : env QcA) o oc : main e o = Ok oc -> o_graphs o = true -> s_eq (pg_sim (oc_end oc)) = [(-1)%Z] -> (exists l, columns (ac_metrics (oc_args oc)) = 1%Z :: l) ->
  exists figs, figures_of "7-demo" oc = Ok figs /\ exists file points changes, In (LineChart file points [(-1)%Z] changes) figs.
Proof.
  intros Em Hg Ee (l & Hm). destruct (C80_every_run_can_be_drawn QcA _ "7-demo" _ _ Em Hg) as (s0 & d & figs & _ & _ & Ef & _ & D); [discriminate|].
  rewrite Hm in D. exists figs. split; [exact Ef|]. cbn [filter Z.eqb Pos.eqb negb andb] in D. inversion D as [|i f l1 l2 Df _]; subst. destruct f as [file points eqs ch|file rs layers]; cbn [depicts] in Df; destruct Df as (D1 & _ & D2); [|discriminate].
  destruct D2 as (_ & _ & D2 & _). rewrite D2, Ee. exists file, points, ch. now left.
Qed.
Theorem C80_equilibrium_line_refuted : exists e o oc figs, contract e /\ main e o = Ok oc /\ o_graphs o = true /\ oc_equilibrium oc = true /\ s_eq (pg_sim (oc_end oc)) = [(-1)%Z] /\
  figures_of "7-demo" oc = Ok figs /\ exists file points changes, In (LineChart file points [(-1)%Z] changes) figs.
Proof.
  exists (demo_env (Some demo_stakes)), still_cmd. assert (B := still_run). destruct (main (demo_env (Some demo_stakes)) still_cmd) as [oc|] eqn:Em; [|discriminate B]. unfold still_check in B.
  apply andb_true_iff in B as [B1 B2]. destruct (s_eq (pg_sim (oc_end oc))) as [|x [|]] eqn:Ee; try discriminate B2. apply Z.eqb_eq in B2. subst x.
  assert (Hm := still_metrics _ (main_args _ _ _ Em)). destruct (line_at_minus_one _ _ _ Em eq_refl Ee) as (figs & Ef & Q); [eexists; exact Hm|].
  exists oc, figs. split; [apply demo_contract|]. split; [reflexivity|]. split; [reflexivity|]. split; [exact B1|]. split; [exact Ee|]. split; [exact Ef | exact Q].
Qed.
