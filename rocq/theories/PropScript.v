(** The columns of the aggregate results (C70) and the runs of the script batch-run.py (C71). *)
From Coq Require Import ZArith List Bool String Lia.
From Verif Require Import Num Py Batch Script ListFacts PropSched PropBatch.
Import ListNotations.
Open Scope nat_scope.

(** * C70 *)
(** the parameters that vary: the ones given as lists *)
Definition varied (parameters : kwargs) : list string := map fst (filter (fun p => match snd p with VList _ => true | _ => false end) parameters).

Lemma sset_new {V} (d : sdict V) k v : ~ In k (map fst d) -> sset d k v = (d ++ [(k, v)])%list.
Proof. induction d as [|[k' v'] d IH]; cbn; [reflexivity|]. intros N. destruct (String.eqb_spec k' k) as [->|]; [exfalso; auto|]. rewrite IH; auto. Qed.
Lemma merge_new {V} (d' d : sdict V) : NoDup (map fst d') -> (forall k, In k (map fst d') -> ~ In k (map fst d)) -> merge d d' = (d ++ d')%list.
Proof.
  revert d. unfold merge. induction d' as [|[k v] d' IH]; intros d N F; cbn [fold_left]; [now rewrite app_nil_r|]. cbn [map fst] in N. apply NoDup_cons_iff in N as [N1 N2]. cbn [fst snd]. rewrite sset_new by (apply F; now left).
  rewrite IH; [now rewrite <- app_assoc | assumption |]. intros k' J. rewrite map_app, in_app_iff. cbn. intros [J'|[<-|[]]]; [apply (F k'); [now right | assumption] | contradiction].
Qed.
Lemma key_filter (parameters : kwargs) n v : NoDup (map fst parameters) -> In (n, v) parameters -> forall f : string * value -> bool, existsb (String.eqb n) (map fst (filter f parameters)) = f (n, v).
Proof.
  intros N J f. destruct (f (n, v)) eqn:E.
  - apply existsb_exists. exists n. split; [|apply String.eqb_refl]. apply (in_map fst _ (n, v)). apply filter_In. auto.
  - apply not_true_is_false. intros C. apply existsb_exists in C as (m & M & Q). apply String.eqb_eq in Q. subst m. apply in_map_iff in M as ([k x] & Q & M). cbn in Q. subst k. apply filter_In in M as [M1 M2].
    apply In_nth_error in M1 as (i1 & M1). apply In_nth_error in J as (i2 & J). apply (sget_nth _ N) in M1. apply (sget_nth _ N) in J. assert (x = v) by congruence. congruence.
Qed.
Lemma shown_keys fixed (d : kwargs) : csv_header fixed d = filter (fun n => negb (existsb (String.eqb n) fixed)) (map fst d).
Proof. unfold csv_header, shown. induction d as [|e d IH]; [reflexivity|]. cbn [filter map]. destruct (existsb _ _); cbn; now rewrite IH. Qed.
Lemma filter_all {X} (f : X -> bool) l : (forall x, In x l -> f x = true) -> filter f l = l.
Proof. induction l as [|x l IH]; intros H; cbn; [reflexivity|]. rewrite H by now left. f_equal. apply IH. intros; apply H; now right. Qed.
Lemma columns_cells fixed (d : kwargs) i n c : NoDup (map fst d) -> nth_error (csv_header fixed d) i = Some n -> nth_error (csv_row fixed d) i = Some c -> sget d n = Some c.
Proof.
  intros N H1 H2. unfold csv_header in H1. unfold csv_row in H2. rewrite nth_error_map in H1, H2. destruct (nth_error (filter (shown fixed) d) i) as [[k v]|] eqn:E; [|discriminate]. cbn in *. injection H1 as <-. injection H2 as <-.
  apply nth_error_In, filter_In in E as [E _]. apply In_nth_error in E as (j & E). eapply sget_nth; eassumption.
Qed.

(** Every row of a batch has the same columns as the header that the first one writes: the step, the parameters that vary, seed, number and name of the run, the metrics; and under each column
    stands what belongs there. *)
Theorem C70_columns_line_up : forall py_str (parameters : kwargs) iterations initial_seed metrics pos job (model_data : kwargs) step,
  NoDup (map fst parameters) -> NoDup metrics -> ~ In "Step"%string (map fst parameters ++ metrics) -> (forall n, In n reserved -> ~ In n (map fst parameters)) ->
  (forall n, In n metrics -> ~ In n (map fst parameters) /\ ~ In n reserved) ->
  nth_error (jobs py_str parameters iterations initial_seed) pos = Some job -> map fst model_data = metrics ->
  let fixed := snd (make_model_kwargs parameters) in
  let header := csv_header fixed (step_data step job model_data) in let row := csv_row fixed (step_data step job model_data) in
  header = ("Step" :: varied parameters ++ reserved ++ metrics)%string%list /\ List.length row = List.length header /\
  forall i name cell, nth_error header i = Some name -> nth_error row i = Some cell ->
    (name = "Step"%string -> cell = VInt step) /\ (In name (varied parameters ++ reserved) -> sget job name = Some cell) /\ (In name metrics -> sget model_data name = Some cell).
Proof.
  intros py_str parameters iterations initial_seed metrics pos job md step N Nm Ns F Fm Hj Em. cbv zeta. destruct (job_fields py_str _ _ _ F _ _ Hj) as (_ & K & _).
  rewrite in_app_iff in Ns. assert (Sr : ~ In "Step"%string reserved) by (intros [C|[C|[C|[]]]]; discriminate).
  assert (Nj : NoDup (map fst job)).
  { rewrite K. clear - N F. induction (map fst parameters) as [|n l IH]; [cbn; repeat constructor; cbn; intuition discriminate|]. cbn. apply NoDup_cons_iff in N as [N1 N2]. constructor; [rewrite in_app_iff; intros [J|J]; [contradiction | apply (F _ J); now left]|].
    apply IH; [assumption|]. intros k J C. apply (F k J). now right. }
  assert (E1 : merge [("Step"%string, VInt step)] job = (("Step"%string, VInt step) :: job)). { apply (merge_new job [("Step"%string, VInt step)]); [assumption|]. intros k J [<-|[]]. rewrite K, in_app_iff in J. tauto. }
  assert (E2 : step_data step job md = (("Step"%string, VInt step) :: job ++ md)%list). { unfold step_data. rewrite E1. rewrite merge_new; [reflexivity | now rewrite Em |]. rewrite Em. intros k J C. cbn [map fst] in C. destruct C as [<-|C]; [tauto|]. rewrite K, in_app_iff in C. apply Fm in J. tauto. }
  rewrite E2. set (fixed := snd (make_model_kwargs parameters)).
  assert (Ff : forall n, In n fixed -> In n (map fst parameters)) by (intros n J; unfold fixed, make_model_kwargs in J; cbn in J; apply in_map_iff in J as (e & <- & J); apply filter_In in J as [J _]; now apply in_map).
  assert (Nf : forall n, ~ In n (map fst parameters) -> negb (existsb (String.eqb n) fixed) = true). { intros n Q. apply negb_true_iff, not_true_is_false. intros C. apply existsb_exists in C as (m & M & Em'). apply String.eqb_eq in Em'. subst m. auto. }
  assert (H : csv_header fixed (("Step"%string, VInt step) :: job ++ md) = ("Step" :: varied parameters ++ reserved ++ metrics)%string%list).
  { rewrite shown_keys. cbn [map fst filter]. rewrite Nf by tauto. f_equal. rewrite map_app, Em, K, !filter_app, <- app_assoc. f_equal; [|f_equal; apply filter_all; intros n J; apply Nf; [now apply F | now apply Fm]].
    assert (Q : forall l, incl l parameters -> filter (fun n => negb (existsb (String.eqb n) fixed)) (map fst l) = map fst (filter (fun p => match snd p with VList _ => true | _ => false end) l)); [|apply Q, incl_refl].
    intros l. induction l as [|[n v] l IH]; intros I; [reflexivity|]. cbn [map fst filter snd]. assert (J : In (n, v) parameters) by (apply I; now left). assert (Ef : existsb (String.eqb n) fixed = snd (all_values (n, v))) by exact (key_filter _ _ _ N J _).
    rewrite Ef. unfold all_values. cbn [snd]. destruct v; cbn [snd negb map fst]; rewrite IH; try reflexivity; intros e Je; apply I; now right. }
  split; [exact H|]. split; [unfold csv_row, csv_header; now rewrite !map_length|].
  intros i name cell H1 H2. assert (Na : NoDup (map fst ((("Step"%string, VInt step) :: job ++ md)%list))).
  { cbn [map fst]. rewrite map_app, Em. constructor; [rewrite in_app_iff, K, in_app_iff; tauto|]. clear - Nj Nm Fm K. assert (D : forall n, In n metrics -> ~ In n (map fst job)) by (intros n J; apply Fm in J; rewrite K, in_app_iff; tauto). clear K.
    induction (map fst job) as [|n l IH]; [assumption|]. cbn. apply NoDup_cons_iff in Nj as [N1 N2]. constructor; [rewrite in_app_iff; intros [J|J]; [contradiction | apply (D _ J); now left]|]. apply IH; [assumption|]. intros m J C. apply (D m J). now right. }
  assert (G := columns_cells _ _ _ _ _ Na H1 H2).
  assert (Ap : forall (d d' : kwargs) n, sget (d ++ d')%list n = match sget d n with Some v => Some v | None => sget d' n end). { clear. induction d as [|[k v] d IH]; intros d' n; cbn; [reflexivity|]. destruct (String.eqb k n); [reflexivity | apply IH]. }
  assert (No : forall (d : kwargs) n, ~ In n (map fst d) -> sget d n = None). { clear. induction d as [|[k v] d IH]; intros n Q; cbn; [reflexivity|]. destruct (String.eqb_spec k n) as [->|]; [exfalso; apply Q; now left | apply IH; intros J; apply Q; now right]. }
  assert (Vp : forall n, In n (varied parameters) -> In n (map fst parameters)) by (intros n J; unfold varied in J; apply in_map_iff in J as (e & <- & J); apply filter_In in J as [J _]; now apply in_map).
  cbn [sget] in G. split; [|split].
  - intros ->. cbn in G. congruence.
  - intros J. rewrite in_app_iff in J. destruct (String.eqb_spec "Step" name) as [<-|]; [exfalso; destruct J as [J|J]; [apply Vp in J|]; tauto|]. rewrite Ap in G. destruct (sget job name) as [x|] eqn:Ej; [exact G|]. exfalso.
    assert (Jm : ~ In name (map fst job)) by (intros Q; apply in_map_iff in Q as ([k x] & Q1 & Q); cbn in Q1; subst k; apply In_nth_error in Q as (i1 & Q); apply (sget_nth _ Nj) in Q; congruence).
    apply Jm. rewrite K, in_app_iff. destruct J as [J|J]; [left; now apply Vp | now right].
  - intros J. destruct (String.eqb_spec "Step" name) as [<-|]; [tauto|]. rewrite Ap, (No job) in G; [exact G|]. rewrite K, in_app_iff. apply Fm in J. tauto.
Qed.
Example C70_instance : let ps := [("k", VList [VInt 100; VInt 200]); ("a0", VAtom "0.3"); ("n", VList [VInt 5])]%string%Z in let job := [("k", VInt 200); ("a0", VAtom "0.3"); ("n", VInt 5); ("seed", VInt 7); ("seq_id", VInt 2); ("execution_id", VStr "x")]%string%Z in
  let md := [("Pool count", VInt 3)]%string in
  csv_header (snd (make_model_kwargs ps)) (step_data 12 job md) = ["Step"; "k"; "n"; "seed"; "seq_id"; "execution_id"; "Pool count"]%string /\
  csv_row (snd (make_model_kwargs ps)) (step_data 12 job md) = [VInt 12; VInt 200; VInt 5; VInt 7; VInt 2; VStr "x"; VInt 3]%string%Z.
Proof. split; reflexivity. Qed.

(** * C71 *)
(** the options of the script that take part in the grid *)
Definition script_names : list string :=
  ["max_iterations"; "n"; "k"; "a0"; "inactive_stake_fraction"; "inactive_stake_fraction_known"; "pareto_param"; "cost_min"; "cost_max"; "extra_pool_cost_fraction"; "stake_distr_source"; "reward_scheme";
   "relative_utility_threshold"; "absolute_utility_threshold"; "iterations_after_convergence"]%string.
(** the values that an option stands for: the ones given, or the default *)
Definition script_values (o : given) (name : string) : list value :=
  match sget o name with Some v => offered v | None => match sget script_options name with Some v => offered v | None => [] end end.
Definition requested_seed (o : given) (drawn : Z) : Z := match sget o "seed" with Some (VInt z) => z | _ => drawn end.

Lemma script_params_keys o path : map fst (merge (script_parameters o) [("parent_dir"%string, VAtom path)]) = (script_names ++ ["parent_dir"%string])%list.
Proof. rewrite merge_new; [reflexivity | repeat constructor; intros [] |]. intros k [<-|[]]. cbn. intuition discriminate. Qed.
Lemma script_params_nth o path j name : nth_error script_names j = Some name -> exists v, nth_error (merge (script_parameters o) [("parent_dir"%string, VAtom path)]) j = Some (name, v) /\ offered v = script_values o name.
Proof.
  intros H. rewrite merge_new; [|repeat constructor; intros [] | intros k [<-|[]]; cbn; intuition discriminate].
  rewrite nth_error_app1 by (assert (L : List.length (script_parameters o) = List.length script_names) by reflexivity; rewrite L; apply nth_error_Some; congruence).
  do 15 (destruct j as [|j]; [cbn in H; injection H as <-; eexists; split; [reflexivity|]; unfold script_values, option_value; cbn [fst snd]; match goal with |- context [sget o ?n] => destruct (sget o n); reflexivity end|]).
  destruct j; discriminate.
Qed.
Lemma script_NoDup : NoDup (script_names ++ ["parent_dir"%string]).
Proof. cbn. repeat constructor; cbn; intuition discriminate. Qed.
Lemma script_free : forall n, In n reserved -> ~ In n (script_names ++ ["parent_dir"%string]).
Proof. intros n [<-|[<-|[<-|[]]]]; cbn; intuition discriminate. Qed.

Lemma Forall2_len {X Y} (R : X -> Y -> Prop) l l' : Forall2 R l l' -> List.length l = List.length l'.
Proof. induction 1; cbn; congruence. Qed.
Lemma Some_inj' {X} (x y : X) : Some x = Some y -> x = y.  Proof. congruence. Qed.
Lemma nth_error_nth'' {X} (l : list X) i d : i < List.length l -> nth_error l i = Some (nth i l d).
Proof. apply nth_error_nth'. Qed.

Lemma cell_of_nth (ps : kwargs) c : cell_of ps c <-> List.length c = List.length ps /\ forall j p i, nth_error ps j = Some p -> nth_error c j = Some i -> i < List.length (offered (snd p)).
Proof.
  unfold cell_of. split.
  - intros Q. split; [now apply Forall2_len in Q|]. induction Q as [|x y l l' Hx Q IH]; intros j p i H1 H2; [destruct j; discriminate|]. destruct j; cbn in *; [congruence | eapply IH; eassumption].
  - revert c. induction ps as [|p ps IH]; intros [|i c] [L Q]; try discriminate; constructor; [apply (Q 0 p i); reflexivity | apply IH; split; [now injection L | intros j; apply (Q (S j))]].
Qed.

(** Each run has one of the values of every option and the seed of the batch; there is a run for every combination of values; two runs differ in the chosen values; a run is started for each position
    of the grid, so the number of runs is the product of the numbers of values. *)
Theorem C71_script_runs_every_combination : forall py_str (o : given) drawn path, let runs := script_jobs py_str o drawn path in
  (forall job, In job runs -> sget job "seed" = Some (VInt (requested_seed o drawn)) /\ forall name, In name script_names -> exists v, sget job name = Some v /\ In v (script_values o name)) /\
  (forall choice : string -> value, (forall name, In name script_names -> In (choice name) (script_values o name)) -> exists job, In job runs /\ forall name, In name script_names -> sget job name = Some (choice name)) /\
  List.length runs = fold_right Nat.mul 1 (map (fun name => List.length (script_values o name)) script_names).
Proof.
  intros py_str o drawn path. cbv zeta. unfold script_jobs. fold (requested_seed o drawn). set (ps := merge (script_parameters o) [("parent_dir"%string, VAtom path)]).
  assert (Kp : map fst ps = (script_names ++ ["parent_dir"%string])%list) by apply script_params_keys.
  destruct (C41_runs_cover_the_grid py_str ps 1 (requested_seed o drawn)) as (cells & Nc & Cc & Lc & Hc); [rewrite Kp; exact script_NoDup | rewrite Kp; exact script_free |]. cbv zeta in Lc, Hc.
  assert (Lp : List.length ps = 16) by (rewrite <- (map_length fst), Kp; reflexivity).
  assert (P15 : nth_error ps 15 = Some ("parent_dir"%string, VAtom path)). { unfold ps. rewrite merge_new; [reflexivity | repeat constructor; intros [] | intros k [<-|[]]; cbn; intuition discriminate]. }
  assert (Cell : forall c, cell_of ps c <-> List.length c = 16 /\ forall j p i, nth_error ps j = Some p -> nth_error c j = Some i -> i < List.length (offered (snd p))).
  { intros c. rewrite <- Lp. apply cell_of_nth. }
  split; [|split].
  - intros job J. apply In_nth_error in J as (pos & J). destruct (Hc _ _ J) as (c & i & E & S1 & _ & V). assert (Jc := nth_error_In _ _ E). apply in_prod_iff in Jc as [Jc Ji]. assert (i = 0) as -> by (cbn in Ji; intuition).
    split; [now rewrite S1, Z.add_0_r|]. intros name Jn. apply In_nth_error in Jn as (j & Jn). destruct (script_params_nth o path _ _ Jn) as (v & Ev & Eo). apply Cc, Cell in Jc as [Lc' Q].
    assert (exists ix, nth_error c j = Some ix) as (ix & Ex). { destruct (nth_error c j) eqn:X; [eauto|]. apply nth_error_None in X. assert (j < List.length ps) by (apply nth_error_Some; fold ps in Ev; congruence). lia. }
    specialize (Q j (name, v) ix Ev Ex). cbn [snd] in Q. apply nth_error_Some in Q. destruct (nth_error (offered v) ix) as [x|] eqn:X; [|congruence]. exists x. split; [exact (V j name v ix x Ev Ex X)|]. rewrite <- Eo. eapply nth_error_In; eassumption.
  - intros choice Hch.
    assert (exists c, cell_of ps c /\ forall j name, nth_error script_names j = Some name -> exists ix, nth_error c j = Some ix /\ nth_error (script_values o name) ix = Some (choice name)) as (c & Hcell & Hpick).
    { assert (exists c, Forall2 (fun name ix => nth_error (script_values o name) ix = Some (choice name)) script_names c) as (c & Fc).
      { clear - Hch. induction script_names as [|n l IH]; [exists []; constructor|]. destruct IH as (c & F); [intros; apply Hch; now right|]. destruct (In_nth_error _ _ (Hch n (or_introl eq_refl))) as (ix & E). exists (ix :: c). now constructor. }
      exists (c ++ [0])%list. assert (Ln : List.length c = 15) by (now apply Forall2_len in Fc).
      assert (Hn : forall j name, nth_error script_names j = Some name -> exists ix, nth_error c j = Some ix /\ nth_error (script_values o name) ix = Some (choice name)).
      { clear - Fc. induction Fc as [|x y l l' Hx Q IH]; intros j name E; [destruct j; discriminate|]. destruct j; cbn in *; [injection E as <-; eauto | now apply IH]. }
      split.
      - apply Cell. split; [rewrite app_length; cbn; lia|]. intros j p i Ep Ei. destruct (Nat.lt_ge_cases j 15) as [L|L].
        + destruct (nth_error script_names j) as [name|] eqn:En; [|apply nth_error_None in En; cbn in En; lia]. destruct (script_params_nth o path _ _ En) as (v & Ev & Eo). fold ps in Ev. assert (p = (name, v)) as -> by congruence. cbn [snd]. rewrite Eo.
          destruct (Hn _ _ En) as (ix & E1 & E2). rewrite nth_error_app1 in Ei by lia. assert (ix = i) as -> by congruence. apply nth_error_Some. congruence.
        + assert (j < 16) by (rewrite <- Lp; apply nth_error_Some; congruence). assert (j = 15) as -> by lia. rewrite P15 in Ep. injection Ep as <-. rewrite nth_error_app2 in Ei by lia. rewrite Ln in Ei. cbn in Ei. injection Ei as <-. cbn. lia.
      - intros j name E. destruct (Hn _ _ E) as (ix & E1 & E2). exists ix. split; [|assumption]. rewrite nth_error_app1; [assumption|]. apply nth_error_Some. congruence. }
    apply Cc in Hcell. assert (Jr : In (c, 0) (list_prod cells (seq 0 1))) by (apply in_prod; [assumption | now left]). apply In_nth_error in Jr as (pos & Er).
    assert (exists job, nth_error (jobs py_str ps 1 (requested_seed o drawn)) pos = Some job) as (job & Ej). { destruct (nth_error (jobs py_str ps 1 (requested_seed o drawn)) pos) eqn:X; [eauto|]. apply nth_error_None in X. rewrite Lc in X. apply nth_error_None in X. congruence. }
    exists job. split; [eapply nth_error_In; eassumption|]. intros name Jn. apply In_nth_error in Jn as (j & Jn). destruct (Hc _ _ Ej) as (c' & i' & E & _ & _ & V). assert (c' = c) as -> by congruence. destruct (Hpick _ _ Jn) as (ix & E1 & E2).
    destruct (script_params_nth o path _ _ Jn) as (v & Ev & Eo). apply (V j name v ix); [exact Ev | exact E1 | now rewrite Eo].
  - assert (Lprod : forall (X : Type) (ls : list (list X)), List.length (product ls) = fold_right Nat.mul 1 (map (@List.length X) ls)).
    { clear. intros X ls. induction ls as [|l ls IH]; [reflexivity|]. cbn [product map fold_right]. rewrite <- IH. generalize (product ls). intros P. induction l as [|x l IHl]; [reflexivity|]. cbn [flat_map]. rewrite app_length, map_length, IHl. reflexivity. }
    rewrite jobs_length. rewrite prod_length. unfold grid. rewrite Lprod, map_map. cbn [seq List.length]. rewrite Nat.mul_1_r. rewrite map_map.
    assert (E : map (fun x => List.length (seq 0 (List.length (fst (all_values x))))) ps = (map (fun name => List.length (script_values o name)) script_names ++ [1])%list).
    { apply nth_ext with (d := 0) (d' := 0); [rewrite app_length, !map_length, Lp; reflexivity|]. intros j Lj. rewrite map_length, Lp in Lj.
      apply Some_inj'. rewrite <- !nth_error_nth'' by (rewrite ?app_length, ?map_length, ?Lp; cbn; lia). rewrite nth_error_map. destruct (Nat.lt_ge_cases j 15) as [L|L].
      - destruct (nth_error script_names j) as [name|] eqn:En; [|apply nth_error_None in En; cbn in En; lia]. destruct (script_params_nth o path _ _ En) as (v & Ev & Eo). fold ps in Ev. rewrite Ev. cbn [option_map]. rewrite nth_error_app1 by (rewrite map_length; cbn; lia).
        rewrite (map_nth_error _ _ _ En). rewrite seq_length, <- Eo. f_equal. destruct v; cbn; now rewrite ?map_length.
      - assert (j = 15) as -> by lia. rewrite P15. reflexivity. }
    rewrite E. rewrite fold_right_app. reflexivity.
Qed.
Example C71_instance : let o := [("k", VList [VInt 10; VInt 20]); ("a0", VList [VAtom "0.1"; VAtom "0.3"; VAtom "0.5"]); ("seed", VInt 42)]%string%Z in
  List.length (script_jobs (fun _ => ""%string) o 5%Z "out"%string) = 6 /\ In (VAtom "0.5") (script_values o "a0") /\ script_values o "n" = [VInt 1000] /\ requested_seed o 5%Z = 42%Z.
Proof. repeat split. right. right. now left. Qed.

(** An option may be left without values; then nothing runs, and the other options do not matter. *)
Theorem C71_no_values_no_runs : forall py_str (o : given) drawn path name, In name script_names -> sget o name = Some (VList []) -> script_jobs py_str o drawn path = [].
Proof.
  intros py_str o drawn path name J H. destruct (C71_script_runs_every_combination py_str o drawn path) as (S1 & _). destruct (script_jobs py_str o drawn path) as [|job l]; [reflexivity|].
  destruct (S1 job (or_introl eq_refl)) as (_ & S2). destruct (S2 _ J) as (v & _ & K). unfold script_values in K. rewrite H in K. destruct K.
Qed.

(** The option for the profiles of the agents is accepted and documented, but changes nothing: the runs are those of a command line without it, and no run is told about profiles. *)
Theorem C71_profile_option_refuted : forall py_str (o : given) drawn path v,
  script_jobs py_str (sset o "agent_profile_distr"%string v) drawn path = script_jobs py_str o drawn path /\
  forall job, In job (script_jobs py_str o drawn path) -> sget job "agent_profile_distr"%string = None.
Proof.
  intros py_str o drawn path v. split.
  - unfold script_jobs. rewrite (sget_sset_ne o "agent_profile_distr"%string "seed"%string) by discriminate.
    assert (E : script_parameters (sset o "agent_profile_distr"%string v) = script_parameters o); [|now rewrite E].
    unfold script_parameters. apply map_ext_in. intros [n d] J. cbn [fst snd]. f_equal. unfold option_value. rewrite sget_sset_ne; [reflexivity|]. intros <-. apply filter_In in J as [_ J]. discriminate.
  - intros job J. apply In_nth_error in J as (pos & J). unfold script_jobs in J. set (ps := merge (script_parameters o) [("parent_dir"%string, VAtom path)]) in J.
    assert (Kp : map fst ps = (script_names ++ ["parent_dir"%string])%list) by apply script_params_keys.
    assert (F : forall n, In n reserved -> ~ In n (map fst ps)) by (rewrite Kp; exact script_free).
    destruct (job_fields py_str ps 1 _ F _ _ J) as (_ & K & _). rewrite Kp in K.
    assert (G : forall (d : kwargs) n, ~ In n (map fst d) -> sget d n = None). { clear. induction d as [|[k x] d IH]; intros n N; [reflexivity|]. cbn in *. destruct (String.eqb_spec k n) as [->|]; [tauto|]. apply IH. tauto. }
    apply G. rewrite K. cbn. intuition discriminate.
Qed.
