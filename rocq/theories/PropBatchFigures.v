(** The figures of a batch (C83). *)
From Coq Require Import ZArith List Bool String Lia Permutation.
From Verif Require Import Num Py Batch Script BatchFigures ListFacts PropSched PropBatch PropScript.
Import ListNotations.
Open Scope nat_scope.

(** * Vocabulary *)
(** the values of the options are numbers or strings, never lists of lists *)
Definition plain_values (o : given) : Prop := forall name v, In name script_names -> In v (script_values o name) -> hashable v = true.
(** the metrics are some of the known ones, and each run measures all of them *)
Definition measured (metrics : list string) (measure : kwargs -> kwargs) : Prop := NoDup metrics /\ incl metrics all_reporters /\ forall job, map fst (measure job) = metrics.
(** [out]: the results of all runs of the script, the runs ending in any order; [step]: the step in which a run is measured *)
Definition results_of (veq : value -> value -> bool) (py_str : value -> string) (o : given) (drawn : Z) (path : string) (step : kwargs -> Z) (measure : kwargs -> kwargs) (out : list (row kwargs)) : Prop :=
  exists finished, Permutation (map (worker (fun job => [step_data (step job) job (measure job)])) (script_jobs py_str o drawn path)) finished /\ collect_results veq finished = Ok out.
(** an option with at least two values *)
Definition several_values (o : given) (name : string) : Prop := In name script_names /\ 2 <= List.length (script_values o name).
(** no value is given twice *)
Definition all_different (veq : value -> value -> bool) (l : list value) : Prop := forall i j a b, nth_error l i = Some a -> nth_error l j = Some b -> veq a b = true -> i = j.

(** * Rows *)
Lemma sget_merge {V} (d' d : sdict V) n : NoDup (map fst d') -> sget (merge d d') n = match sget d' n with Some v => Some v | None => sget d n end.
Proof.
  revert d. unfold merge. induction d' as [|[k v] d' IH]; intros d N; cbn [fold_left sget]; [reflexivity|]. cbn [map fst] in N. apply NoDup_cons_iff in N as [N1 N2]. cbn [fst snd]. rewrite IH by assumption.
  destruct (String.eqb_spec k n) as [->|Ne].
  - assert (sget d' n = None) as ->; [|apply sget_sset_eq]. clear - N1. induction d' as [|[k' v'] d' IH]; [reflexivity|]. cbn in *. destruct (String.eqb_spec k' n) as [->|]; [exfalso; auto|]. apply IH. tauto.
  - destruct (sget d' n); [reflexivity|]. now apply sget_sset_ne.
Qed.
Lemma sget_key {V} (d : sdict V) n : In n (map fst d) -> exists v, sget d n = Some v.
Proof. induction d as [|[k v] d IH]; [intros []|]. cbn. intros [->|J]; [rewrite String.eqb_refl; eauto|]. destruct (String.eqb k n); eauto. Qed.
Lemma sget_nokey {V} (d : sdict V) n : ~ In n (map fst d) -> sget d n = None.
Proof. induction d as [|[k v] d IH]; [reflexivity|]. cbn. intros N. destruct (String.eqb_spec k n) as [->|]; [exfalso; auto|]. apply IH. tauto. Qed.
Lemma merge_keys {V} (d' d : sdict V) n : In n (map fst (merge d d')) <-> In n (map fst d) \/ In n (map fst d').
Proof.
  revert d. unfold merge. induction d' as [|[k v] d' IH]; intros d; cbn [fold_left map fst]; [cbn; tauto|]. rewrite IH. cbn [fst snd]. rewrite sset_keys.
  destruct (existsb (String.eqb k) (map fst d)) eqn:E.
  - apply existsb_exists in E as (m & M & Q). apply String.eqb_eq in Q. subst m. cbn. split; [tauto|]. intros [J|[<-|J]]; auto.
  - rewrite in_app_iff. cbn. tauto.
Qed.
Lemma merge_NoDup {V} (d' d : sdict V) : NoDup (map fst d) -> NoDup (map fst (merge d d')).
Proof.
  revert d. unfold merge. induction d' as [|[k v] d' IH]; intros d N; cbn [fold_left]; [assumption|]. apply IH. cbn [fst snd]. rewrite sset_keys. destruct (existsb (String.eqb k) (map fst d)) eqn:E; [assumption|].
  apply NoDup_app_intro; [assumption | repeat constructor; intros [] |]. intros n J [<-|[]]. assert (existsb (String.eqb k) (map fst d) = true) by (apply existsb_exists; exists k; split; [assumption | apply String.eqb_refl]). congruence.
Qed.

Lemma variable_params_list o : variable_params o = filter (fun n => Nat.leb 2 (List.length (script_values o n))) script_names.
Proof.
  assert (G : forall (L : kwargs) (g : string * value -> string * value) (q : string -> bool), (forall e, In e L -> fst (g e) = fst e /\ is_variable (g e) = q (fst e)) -> map fst (filter is_variable (map g L)) = filter q (map fst L)).
  { induction L as [|e L IH]; intros g q H; [reflexivity|]. cbn [map filter]. destruct (H e (or_introl eq_refl)) as [E1 E2]. rewrite E2. destruct (q (fst e)); cbn [map]; rewrite ?E1; rewrite (IH g q); auto; intros e' J; apply H; now right. }
  unfold variable_params, script_parameters. rewrite (G _ _ (fun n => Nat.leb 2 (List.length (script_values o n)))); [reflexivity|]. intros e J. split; [reflexivity|].
  assert (Q : forall n v, In (n, v) (filter (fun e => negb (String.eqb (fst e) "agent_profile_distr")) script_options) -> sget script_options n = Some v).
  { intros n v K. apply filter_In in K as [K _]. apply In_nth_error in K as (j & K). eapply sget_nth; [|eassumption]. cbn. repeat constructor; cbn; intuition discriminate. }
  destruct e as [n v]. cbn [fst snd]. unfold is_variable, option_value, script_values. cbn [snd]. rewrite (Q n v J). destruct (sget o n) as [u|]; [destruct u | destruct v]; reflexivity.
Qed.
Lemma variable_params_In o x : In x (variable_params o) <-> several_values o x.
Proof. rewrite variable_params_list, filter_In. unfold several_values. now rewrite Nat.leb_le. Qed.

Definition used_names : list string := (script_names ++ (["parent_dir"; "Step"; "RunId"; "iteration"]%string ++ reserved))%list.
Section Setting.
  Variables (veq : value -> value -> bool) (py_str : value -> string) (o : given) (drawn : Z) (path : string) (metrics : list string) (measure : kwargs -> kwargs) (step : kwargs -> Z) (out : list (row kwargs)).
  Hypothesis V : py_equality veq.
  Hypothesis Hm : measured metrics measure.
  Hypothesis Hp : plain_values o.
  Hypothesis Ho : results_of veq py_str o drawn path step measure out.
  Local Definition runs := script_jobs py_str o drawn path.

  Lemma params_free : forall n, In n reserved -> ~ In n (map fst (merge (script_parameters o) [("parent_dir"%string, VAtom path)])).
  Proof. rewrite script_params_keys. exact script_free. Qed.
  Lemma job_keys job : In job runs -> NoDup (map fst job) /\ forall n, In n (map fst job) <-> In n script_names \/ n = "parent_dir"%string \/ In n reserved.
  Proof.
    intros J. apply In_nth_error in J as (pos & J). unfold runs, script_jobs in J. destruct (job_fields py_str _ _ _ params_free _ _ J) as (_ & K & _). rewrite script_params_keys in K. rewrite K. split.
    - apply NoDup_app_intro; [exact script_NoDup | cbn; repeat constructor; cbn; intuition discriminate |]. intros x J1 J2. exact (script_free _ J2 J1).
    - intros n. rewrite !in_app_iff. cbn [In]. intuition.
  Qed.
  Lemma metric_new n : In n metrics -> ~ (In n script_names \/ n = "parent_dir"%string \/ In n reserved) /\ n <> "Step"%string /\ n <> "RunId"%string /\ n <> "iteration"%string.
  Proof.
    destruct Hm as (_ & I & _). intros J. apply I in J. revert n J.
    assert (B : forallb (fun n => negb (existsb (String.eqb n) used_names)) all_reporters = true) by (vm_compute; reflexivity).
    intros n J. assert (C := proj1 (forallb_forall _ _) B n J). apply negb_true_iff in C.
    assert (F : forall m, In m used_names -> n <> m). { intros m M ->. assert (existsb (String.eqb m) used_names = true) by (apply existsb_exists; exists m; split; [assumption | apply String.eqb_refl]). congruence. }
    repeat split; try (apply F; unfold used_names; rewrite in_app_iff; cbn; tauto). intros [K|[K|K]]; refine (F n _ eq_refl); unfold used_names; rewrite !in_app_iff; cbn [In]; subst; tauto.
  Qed.
  Lemma data_get job n : In job runs ->
    (In n script_names -> sget (step_data (step job) job (measure job)) n = sget job n) /\ (In n metrics -> sget (step_data (step job) job (measure job)) n = sget (measure job) n).
  Proof.
    intros J. destruct (job_keys job J) as [N K]. destruct Hm as (Nm & _ & Em). unfold step_data. rewrite sget_merge by (now rewrite Em). split; intros Jn.
    - rewrite (sget_nokey (measure job)) by (rewrite Em; intros C; apply metric_new in C; tauto). rewrite sget_merge by assumption. destruct (sget_key job n) as (v & E); [apply K; tauto|]. now rewrite E.
    - destruct (sget_key (measure job) n) as (v & ->); [now rewrite Em | reflexivity].
  Qed.
  Lemma data_NoDup job : NoDup (map fst (step_data (step job) job (measure job))).
  Proof. unfold step_data. apply merge_NoDup, merge_NoDup. repeat constructor. intros []. Qed.
  Lemma frame_get r job n : In job runs -> run_data r = step_data (step job) job (measure job) ->
    (In n script_names -> sget (frame_row r) n = sget job n) /\ (In n metrics -> sget (frame_row r) n = sget (measure job) n).
  Proof.
    intros J E. destruct (data_get job n J) as [D1 D2]. unfold frame_row. rewrite sget_merge by (rewrite E; apply data_NoDup). rewrite E. split; intros Jn.
    - rewrite D1 by assumption. destruct (job_keys job J) as [_ K]. destruct (sget_key job n) as (v & ->); [apply K; tauto | reflexivity].
    - rewrite D2 by assumption. destruct (sget_key (measure job) n) as (v & ->); [destruct Hm as (_ & _ & ->); assumption | reflexivity].
  Qed.
  Lemma reporters_of_row r job : In job runs -> run_data r = step_data (step job) job (measure job) -> filter (fun n => existsb (String.eqb n) all_reporters) (map fst (frame_row r)) = metrics.
  Proof.
    intros J E. destruct (job_keys job J) as [N K]. destruct Hm as (Nm & I & Em). set (f := fun n => existsb (String.eqb n) all_reporters).
    assert (Fn : forall n, In n used_names -> f n = false).
    { assert (B : forallb (fun n => negb (f n)) used_names = true) by (vm_compute; reflexivity). intros n Jn. apply (proj1 (forallb_forall _ _) B) in Jn. now apply negb_true_iff in Jn. }
    assert (Jk : forall n, In n (map fst job) -> f n = false). { intros n Jn. apply Fn. unfold used_names. rewrite !in_app_iff. apply K in Jn. cbn [In]. intuition. }
    assert (E1 : merge [("Step"%string, VInt (step job))] job = (("Step"%string, VInt (step job)) :: job)). { apply (merge_new job [("Step"%string, VInt (step job))]); [assumption|]. intros k Jn [<-|[]]. apply K in Jn. cbn in Jn. intuition discriminate. }
    assert (E2 : run_data r = (("Step"%string, VInt (step job)) :: job ++ measure job)%list).
    { rewrite E. unfold step_data. rewrite E1. rewrite merge_new; [reflexivity | now rewrite Em |]. rewrite Em. intros k Jn C. cbn [map fst] in C. destruct (metric_new k Jn) as (M1 & M2 & _). destruct C as [C|C]; [congruence|]. apply K in C. tauto. }
    assert (E3 : frame_row r = (("RunId"%string, VInt (Z.of_nat (run_id r))) :: ("iteration"%string, VInt (iteration r)) :: run_data r)).
    { unfold frame_row. rewrite merge_new; [reflexivity | rewrite E; apply data_NoDup |]. rewrite E2. intros k Jn C. cbn [map fst] in Jn, C. rewrite map_app, Em in Jn. cbn [In] in Jn. rewrite in_app_iff in Jn.
      destruct Jn as [<-|[Jn|Jn]]; [destruct C as [C|[C|[]]]; discriminate | apply K in Jn; destruct C as [<-|[<-|[]]]; cbn in Jn; intuition discriminate | destruct (metric_new k Jn) as (_ & _ & M3 & M4); destruct C as [C|[C|[]]]; congruence]. }
    rewrite E3, E2. cbn [map fst filter]. rewrite (Fn "RunId"%string), (Fn "iteration"%string), (Fn "Step"%string) by (unfold used_names; apply in_or_app; right; cbn; tauto). rewrite map_app, filter_app, Em.
    assert (Z : filter f (map fst job) = []). { clear - Jk. induction (map fst job) as [|n l IH]; [reflexivity|]. cbn [filter]. rewrite Jk by now left. apply IH. intros; apply Jk; now right. }
    rewrite Z. cbn [app]. apply filter_all. intros n Jn. apply I in Jn. unfold f. apply existsb_exists. exists n. split; [assumption | apply String.eqb_refl].
  Qed.
  (** the rows of the frame are the runs *)
  Lemma rows_are_runs : exists js, Permutation runs js /\ Forall2 (fun r job => In job runs /\ run_data r = step_data (step job) job (measure job)) out js.
  Proof.
    destruct Ho as (finished & P & C). fold runs in P. unfold runs, script_jobs in P. cbv zeta in P.
    assert (Hh : forall p v, In p (merge (script_parameters o) [("parent_dir"%string, VAtom path)]) -> In v (offered (snd p)) -> hashable v = true).
    { intros p v Jp Jv. apply In_nth_error in Jp as (j & Jp). assert (Lj : j < 16). { assert (X : List.length (merge (script_parameters o) [("parent_dir"%string, VAtom path)]) = 16) by (rewrite <- (map_length fst), script_params_keys; reflexivity). rewrite <- X. apply nth_error_Some. congruence. }
      destruct (Nat.lt_ge_cases j 15) as [L|L].
      - destruct (nth_error script_names j) as [name|] eqn:En; [|apply nth_error_None in En; cbn in En; lia]. destruct (script_params_nth o path _ _ En) as (u & Eu & Eo). assert (p = (name, u)) as -> by congruence. apply (Hp name); [eapply nth_error_In; eassumption|]. rewrite <- Eo. exact Jv.
      - assert (j = 15) as -> by lia. rewrite merge_new in Jp; [|repeat constructor; intros [] | intros k [<-|[]]; cbn; intuition discriminate]. cbn in Jp. injection Jp as <-. destruct Jv as [<-|[]]. reflexivity. }
    destruct (C42_every_run_recorded_once kwargs veq py_str _ 1 _ _ finished V params_free Hh P) as (out' & C' & P' & _). assert (out' = out) as -> by congruence.
    rewrite flat_map_concat_map, <- (map_map (fun job => step_data (step job) job (measure job)) (fun x => [x])), <- flat_map_concat_map in P'.
    assert (F : forall l : list kwargs, flat_map (fun x => [x]) l = l) by (induction l; cbn; congruence). rewrite F in P'.
    apply Permutation_map_inv in P' as (js & E & P'). exists js. split; [exact P'|].
    assert (I : forall job, In job js -> In job runs) by (intros job; apply (Permutation_in _ (Permutation_sym P'))). clear - E I. revert out E. induction js as [|job js IH]; intros [|r out] E; try discriminate; constructor.
    - split; [apply I; now left | now injection E].
    - apply IH; [intros; apply I; now right | now injection E].
  Qed.
End Setting.

(** * Scatter plots *)
Lemma Forall2_weak {X Y} (R R' : X -> Y -> Prop) l l' : (forall x y, R x y -> R' x y) -> Forall2 R l l' -> Forall2 R' l l'.
Proof. intros H. induction 1; constructor; auto. Qed.
Lemma kept_rows {X} (b : X -> bool) (l : list X) : map snd (filter (fun p => fst p) (combine (map b l) l)) = filter b l.
Proof. induction l as [|x l IH]; [reflexivity|]. cbn. destruct (b x); cbn; now rewrite IH. Qed.
(** the metric of a run counts as non-negative *)
Definition shown_run (nonneg : value -> option bool) (measure : kwargs -> kwargs) (m : string) (job : kwargs) : bool :=
  match sget (measure job) m with Some v => match nonneg v with Some b => b | None => false end | None => false end.

(** There is one point for every run whose metric is not negative, no other point, and the point stands at the parameter and the metric of its run; in whatever order the runs ended. *)
Theorem C83_points_are_the_runs : forall nonneg veq py_str o drawn path metrics measure step out x m,
  py_equality veq -> plain_values o -> measured metrics measure -> results_of veq py_str o drawn path step measure out ->
  several_values o x -> In m metrics -> (forall job v, sget (measure job) m = Some v -> exists b, nonneg v = Some b) ->
  exists points, scatter nonneg (data_frame out) x m = Ok points /\
    Permutation (map (fun p => (Some (fst p), Some (snd p))) points)
                (map (fun job => (sget job x, sget (measure job) m)) (filter (shown_run nonneg measure m) (script_jobs py_str o drawn path))).
Proof.
  intros nonneg veq py_str o drawn path metrics measure step out x m V Hp Hm Ho [Jx _] Jm Hn.
  destruct (rows_are_runs veq py_str o drawn path measure step out V Hp Ho) as (js & P & F). fold (runs py_str o drawn path).
  set (val := fun (n : string) (r : kwargs) => match sget r n with Some v => v | None => VInt 0 end).
  set (b := fun r => match nonneg (val m r) with Some b => b | None => false end).
  assert (G : Forall2 (fun r job => sget (frame_row r) x = sget job x /\ sget (frame_row r) m = sget (measure job) m /\ (exists u, sget job x = Some u) /\ exists u, sget (measure job) m = Some u) out js).
  { eapply Forall2_weak; [|exact F]. cbn beta. intros r job [J E]. destruct (frame_get py_str o drawn path metrics measure step Hm r job x J E) as [G1 _]. destruct (frame_get py_str o drawn path metrics measure step Hm r job m J E) as [_ G2].
    split; [auto|]. split; [auto|]. split; [apply sget_key, (job_keys py_str o drawn path job J); auto | apply sget_key; destruct Hm as (_ & _ & ->); exact Jm]. }
  assert (T : forall r, In r (data_frame out) -> (exists u, sget r x = Some u) /\ exists u, sget r m = Some u).
  { intros r J. apply in_map_iff in J as (r0 & <- & J). clear - G J. induction G as [|r1 job out js (G1 & G2 & G3 & G4) G IH]; [destruct J|]. destruct J as [->|J]; [rewrite G1, G2; now split | auto]. }
  unfold scatter. rewrite (mapM_pure _ b).
  2:{ intros r J. destruct (T r J) as (_ & u & E). unfold entry, b, val. rewrite E. cbn [of_option bind].
      assert (exists job, sget (measure job) m = Some u) as (job & Ej). { apply in_map_iff in J as (r0 & <- & J). clear - G J E. induction G as [|r1 job out js (G1 & G2 & G3 & G4) G IH]; [destruct J|]. destruct J as [->|J]; [exists job; congruence | auto]. }
      destruct (Hn _ _ Ej) as (bb & ->). reflexivity. }
  cbn [bind]. rewrite kept_rows. rewrite (mapM_pure _ (fun r => (val x r, val m r))).
  2:{ intros r J. apply filter_In in J as [J _]. destruct (T r J) as ((u & E) & w & E'). unfold entry, val. rewrite E, E'. reflexivity. }
  eexists. split; [reflexivity|]. rewrite map_map. cbn [fst snd].
  assert (E : map (fun r => (Some (val x r), Some (val m r))) (filter b (data_frame out)) = map (fun job => (sget job x, sget (measure job) m)) (filter (shown_run nonneg measure m) js)).
  { clear - G. unfold data_frame. induction G as [|r1 job out js (G1 & G2 & (u & G3) & w & G4) G IH]; [reflexivity|]. cbn [map filter].
    assert (Eb : b (frame_row r1) = shown_run nonneg measure m job) by (unfold b, val, shown_run; now rewrite G2, G4). rewrite Eb. destruct (shown_run nonneg measure m job); [|exact IH]. cbn [map]. rewrite IH. f_equal. unfold val. now rewrite G1, G2, G3, G4. }
  rewrite E. apply Permutation_map. apply Permutation_sym. clear - P. induction P as [|y l l' P IH|y z l|l l' l'' P IH P' IH']; cbn; [constructor | destruct (shown_run nonneg measure m y); [now constructor | assumption] | | now transitivity (filter (shown_run nonneg measure m) l')].
  destruct (shown_run nonneg measure m y), (shown_run nonneg measure m z); reflexivity || constructor.
Qed.

(** * Runs that differ *)
Fixpoint upd {X} (l : list X) (j : nat) (x : X) : list X := match l, j with [], _ => [] | _ :: l, 0 => x :: l | y :: l, S j => y :: upd l j x end.
Lemma upd_length {X} (l : list X) j x : List.length (upd l j x) = List.length l.
Proof. revert j. induction l as [|y l IH]; intros [|j]; cbn; auto. Qed.
Lemma upd_nth {X} (l : list X) j x i : nth_error (upd l j x) i = if Nat.eqb i j then (if Nat.ltb i (List.length l) then Some x else None) else nth_error l i.
Proof.
  revert j i. induction l as [|y l IH]; intros [|j] [|i]; cbn; try reflexivity.
  - now destruct (Nat.eqb i j).
  - rewrite IH. destruct (Nat.eqb i j); [|reflexivity]. change (S i <? S (List.length l)) with (i <? List.length l). reflexivity.
Qed.
Lemma differ_at {X} (dec : forall a b : X, {a = b} + {a <> b}) (c c' : list X) : List.length c = List.length c' -> c <> c' -> exists j a b, nth_error c j = Some a /\ nth_error c' j = Some b /\ a <> b.
Proof.
  revert c'. induction c as [|a c IH]; intros [|b c'] L N; try discriminate; [congruence|]. destruct (dec a b) as [->|Ne]; [|exists 0, a, b; cbn; auto]. destruct (IH c') as (j & a' & b' & H); [now injection L | congruence | exists (S j), a', b'; exact H].
Qed.
Section Runs.
  Variables (py_str : value -> string) (o : given) (drawn : Z) (path : string).
  Local Notation ps := (merge (script_parameters o) [("parent_dir"%string, VAtom path)]).
  Lemma ps_length : List.length ps = 16.
  Proof. rewrite <- (map_length fst), script_params_keys. reflexivity. Qed.
  Lemma ps_last : nth_error ps 15 = Some ("parent_dir"%string, VAtom path).
  Proof. rewrite merge_new; [reflexivity | repeat constructor; intros [] | intros k [<-|[]]; cbn; intuition discriminate]. Qed.
  Lemma ps_nth j p : nth_error ps j = Some p -> (exists name v, p = (name, v) /\ nth_error script_names j = Some name /\ offered v = script_values o name) \/ (j = 15 /\ p = ("parent_dir"%string, VAtom path)).
  Proof.
    intros H. assert (Lj : j < 16) by (rewrite <- ps_length; apply nth_error_Some; congruence). destruct (Nat.lt_ge_cases j 15) as [L|L].
    - destruct (nth_error script_names j) as [name|] eqn:En; [|apply nth_error_None in En; cbn in En; lia]. destruct (script_params_nth o path _ _ En) as (u & Eu & Eo). left. exists name, u. split; [congruence | auto].
    - assert (j = 15) as -> by lia. rewrite ps_last in H. right. split; congruence.
  Qed.
  Lemma two_runs p q a b : nth_error (runs py_str o drawn path) p = Some a -> nth_error (runs py_str o drawn path) q = Some b -> p <> q ->
    exists name i j x y, several_values o name /\ nth_error (script_values o name) i = Some x /\ nth_error (script_values o name) j = Some y /\ i <> j /\ sget a name = Some x /\ sget b name = Some y.
  Proof.
    intros Ha Hb Ne. unfold runs, script_jobs in Ha, Hb. destruct (C41_runs_cover_the_grid py_str ps 1 (requested_seed o drawn)) as (cells & Nc & Cc & Lc & Hc); [rewrite script_params_keys; exact script_NoDup | exact (params_free o path) |]. cbv zeta in Lc, Hc.
    destruct (Hc _ _ Ha) as (c & i & E & _ & _ & Vc). destruct (Hc _ _ Hb) as (c' & i' & E' & _ & _ & Vc').
    assert (Jc := nth_error_In _ _ E). assert (Jc' := nth_error_In _ _ E'). apply in_prod_iff in Jc as [Jc Ji]. apply in_prod_iff in Jc' as [Jc' Ji']. cbn in Ji, Ji'. assert (i = 0) as -> by intuition. assert (i' = 0) as -> by intuition.
    assert (Nr : NoDup (list_prod cells (seq 0 1))). { clear - Nc. cbn. induction Nc as [|c l N1 N IH]; cbn; [constructor|]. constructor; [|assumption]. rewrite in_prod_iff. tauto. }
    assert (Nd : c <> c'). { intros <-. apply Ne. apply (proj1 (NoDup_nth_error _) Nr); [apply nth_error_Some; congruence | congruence]. }
    apply Cc, cell_of_nth in Jc as [L1 Q1]. apply Cc, cell_of_nth in Jc' as [L2 Q2].
    destruct (differ_at Nat.eq_dec c c') as (j & ia & ib & D1 & D2 & D3); [congruence | assumption |].
    destruct (nth_error ps j) as [pp|] eqn:Ep; [|apply nth_error_None in Ep; assert (j < List.length c) by (apply nth_error_Some; congruence); lia].
    specialize (Q1 _ _ _ Ep D1). specialize (Q2 _ _ _ Ep D2). destruct (ps_nth _ _ Ep) as [(name & v & -> & En & Eo)|[-> ->]]; [|cbn in Q1, Q2; lia]. cbn [snd] in Q1, Q2.
    destruct (nth_error (offered v) ia) as [x|] eqn:X; [|apply nth_error_None in X; lia]. destruct (nth_error (offered v) ib) as [y|] eqn:Y; [|apply nth_error_None in Y; lia].
    exists name, ia, ib, x, y. rewrite <- Eo. split; [split; [eapply nth_error_In; eassumption | rewrite <- Eo; lia]|]. split; [assumption|]. split; [assumption|]. split; [assumption|]. split; [eapply Vc; eassumption | eapply Vc'; eassumption].
  Qed.
  Lemma repeated_runs name i j x y : In name script_names -> nth_error (script_values o name) i = Some x -> nth_error (script_values o name) j = Some y -> i <> j -> runs py_str o drawn path <> [] ->
    exists p q a b, nth_error (runs py_str o drawn path) p = Some a /\ nth_error (runs py_str o drawn path) q = Some b /\ p <> q /\ sget a name = Some x /\ sget b name = Some y /\ forall n, In n script_names -> n <> name -> sget a n = sget b n.
  Proof.
    intros Jn Hi Hj Ne Hr. unfold runs, script_jobs in *. destruct (C41_runs_cover_the_grid py_str ps 1 (requested_seed o drawn)) as (cells & Nc & Cc & Lc & Hc); [rewrite script_params_keys; exact script_NoDup | exact (params_free o path) |]. cbv zeta in Lc, Hc.
    set (jobs0 := jobs py_str ps 1 (requested_seed o drawn)) in *. change (jobs py_str ps 1 match sget o "seed" with | Some (VInt z) => z | _ => drawn end) with jobs0 in Hr |- *.
    assert (exists c0, In c0 cells) as (c0 & J0). { destruct jobs0 as [|job l] eqn:Ej; [congruence|]. destruct (Hc 0 job eq_refl) as (c & i0 & E & _). apply nth_error_In, in_prod_iff in E as [E _]. eauto. }
    apply In_nth_error in Jn as (jn & Jn). destruct (script_params_nth o path _ _ Jn) as (v & Ev & Eo).
    assert (U : forall ix z, nth_error (script_values o name) ix = Some z -> In (upd c0 jn ix) cells).
    { intros ix z Hz. apply Cc, cell_of_nth. apply Cc, cell_of_nth in J0 as [L0 Q0]. rewrite upd_length. split; [assumption|]. intros j' p i' Ep Ei. rewrite upd_nth in Ei. destruct (Nat.eqb_spec j' jn) as [->|Nj]; [|eapply Q0; eassumption].
      destruct (Nat.ltb jn (List.length c0)); [|discriminate]. injection Ei as <-. rewrite Ev in Ep. injection Ep as <-. cbn [snd]. rewrite Eo. apply nth_error_Some. congruence. }
    assert (W : forall ix z, nth_error (script_values o name) ix = Some z -> exists p a, nth_error (list_prod cells (seq 0 1)) p = Some (upd c0 jn ix, 0) /\ nth_error jobs0 p = Some a /\ sget a name = Some z /\
      forall j' n u i' z', j' <> jn -> nth_error ps j' = Some (n, u) -> nth_error c0 j' = Some i' -> nth_error (offered u) i' = Some z' -> sget a n = Some z').
    { intros ix z Hz. assert (Jr : In (upd c0 jn ix, 0) (list_prod cells (seq 0 1))) by (apply in_prod; [eapply U; eassumption | now left]). apply In_nth_error in Jr as (p & Er).
      assert (exists a, nth_error jobs0 p = Some a) as (a & Ea). { destruct (nth_error jobs0 p) eqn:X; [eauto|]. apply nth_error_None in X. rewrite Lc in X. apply nth_error_None in X. congruence. }
      exists p, a. split; [assumption|]. split; [assumption|]. destruct (Hc _ _ Ea) as (c' & i' & E & _ & _ & Vc). assert (c' = upd c0 jn ix) as -> by congruence. split.
      - apply (Vc jn name v ix); [exact Ev | | now rewrite Eo]. rewrite upd_nth, Nat.eqb_refl. apply Cc, cell_of_nth in J0 as [L0 _]. assert (jn < List.length ps) by (apply nth_error_Some; congruence). destruct (Nat.ltb_spec jn (List.length c0)); [reflexivity | lia].
      - intros j' n u i2 z' Nj E1 E2 E3. apply (Vc j' n u i2); [assumption | | assumption]. rewrite upd_nth. destruct (Nat.eqb_spec j' jn); [contradiction | assumption]. }
    destruct (W i x Hi) as (p & a & P1 & P2 & P3 & P4). destruct (W j y Hj) as (q & b & Q1 & Q2 & Q3 & Q4). exists p, q, a, b. split; [assumption|]. split; [assumption|]. split; [|split; [assumption|]; split; [assumption|]].
    - intros <-. rewrite P1 in Q1. injection Q1 as Q1. apply (f_equal (fun l => nth_error l jn)) in Q1. rewrite !upd_nth, Nat.eqb_refl in Q1. apply Cc, cell_of_nth in J0 as [L0 _]. assert (jn < List.length ps) by (apply nth_error_Some; congruence). destruct (Nat.ltb_spec jn (List.length c0)); [congruence | lia].
    - intros n Jn' Nn. apply In_nth_error in Jn' as (jm & Jm). destruct (script_params_nth o path _ _ Jm) as (u & Eu & Eou). apply Cc, cell_of_nth in J0 as [L0 Q0]. destruct (nth_error c0 jm) as [i2|] eqn:E2; [|apply nth_error_None in E2; assert (jm < List.length ps) by (apply nth_error_Some; congruence); lia].
      specialize (Q0 _ _ _ Eu E2). cbn [snd] in Q0. destruct (nth_error (offered u) i2) as [z|] eqn:Ez; [|apply nth_error_None in Ez; lia]. assert (jm <> jn) by (intros ->; congruence). rewrite (P4 jm n u i2 z), (Q4 jm n u i2 z); auto.
  Qed.
  Lemma runs_NoDup : NoDup (runs py_str o drawn path).
  Proof.
    apply NoDup_nth_error. intros p q L E. apply nth_error_Some in L. destruct (nth_error (runs py_str o drawn path) p) as [a|] eqn:Ea; [|congruence]. symmetry in E. unfold runs, script_jobs in Ea, E.
    destruct (job_fields py_str _ _ _ (params_free o path) _ _ Ea) as (S1 & _). destruct (job_fields py_str _ _ _ (params_free o path) _ _ E) as (S2 & _). rewrite S1 in S2. injection S2 as S2. lia.
  Qed.
End Runs.

(** * Heat maps *)
Lemma duplicates_spec veq l : duplicates veq l = true <-> exists i j p q, i < j /\ nth_error l i = Some p /\ nth_error l j = Some q /\ same_index veq p q = true.
Proof.
  induction l as [|p l IH]; cbn [duplicates]; [split; [discriminate | intros (i & j & p & q & _ & H & _); destruct i; discriminate]|]. rewrite orb_true_iff, IH. split.
  - intros [H|(i & j & p' & q & L & H)]; [|exists (S i), (S j), p', q; split; [lia | exact H]]. apply existsb_exists in H as (q & J & S1). apply In_nth_error in J as (j & J). exists 0, (S j), p, q. split; [lia | auto].
  - intros (i & j & p' & q & L & H1 & H2 & S1). destruct j as [|j]; [lia|]. destruct i as [|i]; [left; injection H1 as ->; apply existsb_exists; exists q; split; [eapply nth_error_In; exact H2 | assumption]|]. right. exists i, j, p', q. split; [lia | auto].
Qed.
Lemma Forall2_nth {X Y} (R : X -> Y -> Prop) l l' : Forall2 R l l' -> (forall i y, nth_error l' i = Some y -> exists x, nth_error l i = Some x /\ R x y) /\ forall i x, nth_error l i = Some x -> exists y, nth_error l' i = Some y /\ R x y.
Proof. induction 1 as [|x y l l' H F [IH1 IH2]]; split; intros [|i] z E; cbn in *; try discriminate; try (injection E as <-); eauto. Qed.

(** When two options take several values, and no value is given twice, every heat map has one cell per run, at the two values of the run, showing its metric (so one cell for each pair of values, C71). *)
Theorem C83_cells_are_the_runs : forall veq py_str o drawn path metrics measure step out v1 v2 m,
  py_equality veq -> plain_values o -> measured metrics measure -> results_of veq py_str o drawn path step measure out ->
  (forall x, several_values o x <-> x = v1 \/ x = v2) -> all_different veq (script_values o v1) -> all_different veq (script_values o v2) -> In m metrics ->
  exists cells, heatmap veq (data_frame out) v1 v2 m = Ok cells /\
    Permutation (map (fun c => (Some (fst (fst c)), Some (snd (fst c)), Some (snd c))) cells)
                (map (fun job => (sget job v1, sget job v2, sget (measure job) m)) (script_jobs py_str o drawn path)).
Proof.
  intros veq py_str o drawn path metrics measure step out v1 v2 m V Hp Hm Ho Hv D1 D2 Jm.
  destruct (rows_are_runs veq py_str o drawn path measure step out V Hp Ho) as (js & P & F). fold (runs py_str o drawn path).
  assert (J1 : In v1 script_names) by (apply Hv; now left). assert (J2 : In v2 script_names) by (apply Hv; now right).
  set (val := fun (n : string) (r : kwargs) => match sget r n with Some v => v | None => VInt 0 end).
  assert (G : Forall2 (fun r job => In job (runs py_str o drawn path) /\ sget job v1 = Some (val v1 (frame_row r)) /\ sget job v2 = Some (val v2 (frame_row r)) /\ sget (measure job) m = Some (val m (frame_row r)) /\
     entry v1 (frame_row r) = Ok (val v1 (frame_row r)) /\ entry v2 (frame_row r) = Ok (val v2 (frame_row r)) /\ entry m (frame_row r) = Ok (val m (frame_row r))) out js).
  { eapply Forall2_weak; [|exact F]. cbn beta. intros r job [J E]. destruct (frame_get py_str o drawn path metrics measure step Hm r job v1 J E) as [G1 _]. destruct (frame_get py_str o drawn path metrics measure step Hm r job v2 J E) as [G2 _].
    destruct (frame_get py_str o drawn path metrics measure step Hm r job m J E) as [_ G3]. specialize (G1 J1). specialize (G2 J2). specialize (G3 Jm).
    destruct (sget_key job v1) as (u1 & E1); [apply (job_keys py_str o drawn path job J); auto|]. destruct (sget_key job v2) as (u2 & E2); [apply (job_keys py_str o drawn path job J); auto|]. destruct (sget_key (measure job) m) as (u3 & E3); [destruct Hm as (_ & _ & ->); exact Jm|].
    unfold entry, val. rewrite G1, G2, G3, E1, E2, E3. repeat split; auto. }
  unfold heatmap. rewrite (mapM_pure _ (fun r => ((val v1 r, val v2 r), val m r))).
  2:{ intros r J. apply in_map_iff in J as (r0 & <- & J). apply In_nth_error in J as (i & J). destruct (proj2 (Forall2_nth _ _ _ G) _ _ J) as (job & _ & _ & _ & _ & _ & E1 & E2 & E3). rewrite E1, E2, E3. reflexivity. }
  cbn [bind]. rewrite map_map. cbn [fst].
  destruct (duplicates veq _) eqn:Ed.
  - exfalso. apply duplicates_spec in Ed as (i & j & p & q & L & Hi & Hj & S1). rewrite nth_error_map in Hi, Hj. unfold data_frame in Hi, Hj. rewrite nth_error_map in Hi, Hj.
    destruct (nth_error out i) as [ra|] eqn:Ea; [|discriminate]. destruct (nth_error out j) as [rb|] eqn:Eb; [|discriminate]. cbn in Hi, Hj. injection Hi as <-. injection Hj as <-.
    destruct (proj2 (Forall2_nth _ _ _ G) _ _ Ea) as (a & Ia & Ja & A1 & A2 & _). destruct (proj2 (Forall2_nth _ _ _ G) _ _ Eb) as (b & Ib & Jb & B1 & B2 & _).
    unfold same_index in S1. cbn [fst snd] in S1. apply andb_true_iff in S1 as [S1 S2].
    apply In_nth_error in Ja as (pa & Ja). apply In_nth_error in Jb as (pb & Jb).
    assert (Np : pa <> pb). { intros <-. assert (a = b) as -> by congruence. assert (Nj : NoDup js) by (eapply Permutation_NoDup; [exact P | apply runs_NoDup]). assert (i = j); [|lia]. apply (proj1 (NoDup_nth_error js) Nj); [apply nth_error_Some; congruence | congruence]. }
    destruct (two_runs py_str o drawn path _ _ _ _ Ja Jb Np) as (name & ix & jx & x & y & Hs & X1 & X2 & Nx & Ga & Gb). apply Nx. apply Hv in Hs as [-> | ->]; [apply (D1 _ _ _ _ X1 X2) | apply (D2 _ _ _ _ X1 X2)]; congruence.
  - eexists. split; [reflexivity|]. rewrite map_map. cbn [fst snd].
    assert (E : map (fun r => (Some (val v1 r), Some (val v2 r), Some (val m r))) (data_frame out) = map (fun job => (sget job v1, sget job v2, sget (measure job) m)) js).
    { clear - G. unfold data_frame. induction G as [|r job out js (_ & G1 & G2 & G3 & _) G IH]; [reflexivity|]. cbn [map]. rewrite IH. now rewrite G1, G2, G3. }
    rewrite E. apply Permutation_map, Permutation_sym, P.
Qed.
(** But when one of the two options is given a value twice, no heat map is drawn: the script ends with a ValueError, after all the runs were made. *)
Theorem C83_repeated_value_refuted : forall nonneg veq batch_run_id py_str o drawn path metrics measure step out v1 v2 v i j x y,
  py_equality veq -> (forall a b, veq a b = veq b a) -> plain_values o -> measured metrics measure -> metrics <> [] -> results_of veq py_str o drawn path step measure out ->
  (forall job m u, sget (measure job) m = Some u -> exists b, nonneg u = Some b) ->
  variable_params o = [v1; v2] -> script_jobs py_str o drawn path <> [] ->
  v = v1 \/ v = v2 -> nth_error (script_values o v) i = Some x -> nth_error (script_values o v) j = Some y -> i <> j -> veq x y = true ->
  batch_figures nonneg veq batch_run_id o (data_frame out) = Err ValueError.
Proof.
  intros nonneg veq id py_str o drawn path metrics measure step out v1 v2 v i j x y V Sy Hp Hm Nm Ho Hn Hv Hr Jv Hi Hj Ne Exy.
  destruct (rows_are_runs veq py_str o drawn path measure step out V Hp Ho) as (js & P & F). fold (runs py_str o drawn path) in Hr.
  assert (Hs : forall x, several_values o x <-> x = v1 \/ x = v2) by (intros z; rewrite <- variable_params_In, Hv; cbn; intuition).
  assert (J1 : In v1 script_names) by (apply Hs; now left). assert (J2 : In v2 script_names) by (apply Hs; now right).
  unfold batch_figures. rewrite Hv.
  assert (Mr : model_reporters (data_frame out) = metrics).
  { destruct F as [|r job out' js' [Jj E] F]; [apply Permutation_sym, Permutation_nil in P; congruence|]. cbn [data_frame map model_reporters]. exact (reporters_of_row py_str o drawn path metrics measure step Hm r job Jj E). }
  rewrite Mr.
  match goal with |- context [mapM ?f (list_prod ?a ?b)] => destruct (mapM_total f (list_prod a b)) as (sc & ->) end.
  { intros [z m] J. apply in_prod_iff in J as [J Jm]. cbn [fst snd]. assert (S1 : several_values o z) by (apply Hs; cbn in J; intuition).
    destruct (C83_points_are_the_runs nonneg veq py_str o drawn path metrics measure step out z m V Hp Hm Ho S1 Jm) as (pts & -> & _); [intros job u E; eapply Hn; eassumption|]. cbn [bind]. eauto. }
  cbn [bind]. destruct metrics as [|m ms]; [congruence|]. cbn [mapM].
  assert (Eh : heatmap veq (data_frame out) v1 v2 m = Err ValueError); [|rewrite Eh; reflexivity].
  set (val := fun (n : string) (r : kwargs) => match sget r n with Some v => v | None => VInt 0 end).
  assert (Jm : In m (m :: ms)) by now left.
  assert (G : Forall2 (fun r job => sget job v1 = Some (val v1 (frame_row r)) /\ sget job v2 = Some (val v2 (frame_row r)) /\
     entry v1 (frame_row r) = Ok (val v1 (frame_row r)) /\ entry v2 (frame_row r) = Ok (val v2 (frame_row r)) /\ entry m (frame_row r) = Ok (val m (frame_row r))) out js).
  { eapply Forall2_weak; [|exact F]. cbn beta. intros r job [J E]. destruct (frame_get py_str o drawn path (m :: ms) measure step Hm r job v1 J E) as [G1 _]. destruct (frame_get py_str o drawn path (m :: ms) measure step Hm r job v2 J E) as [G2 _].
    destruct (frame_get py_str o drawn path (m :: ms) measure step Hm r job m J E) as [_ G3]. specialize (G1 J1). specialize (G2 J2). specialize (G3 Jm).
    destruct (sget_key job v1) as (u1 & E1); [apply (job_keys py_str o drawn path job J); auto|]. destruct (sget_key job v2) as (u2 & E2); [apply (job_keys py_str o drawn path job J); auto|]. destruct (sget_key (measure job) m) as (u3 & E3); [destruct Hm as (_ & _ & ->); exact Jm|].
    unfold entry, val. rewrite G1, G2, G3, E1, E2, E3. repeat split; auto. }
  unfold heatmap. rewrite (mapM_pure _ (fun r => ((val v1 r, val v2 r), val m r))).
  2:{ intros r J. apply in_map_iff in J as (r0 & <- & J). apply In_nth_error in J as (k & J). destruct (proj2 (Forall2_nth _ _ _ G) _ _ J) as (job & _ & _ & _ & E1 & E2 & E3). rewrite E1, E2, E3. reflexivity. }
  cbn [bind]. rewrite map_map. cbn [fst].
  assert (Jn : In v script_names) by (destruct Jv as [-> | ->]; assumption).
  destruct (repeated_runs py_str o drawn path v i j x y Jn Hi Hj Ne Hr) as (p & q & a & b & Hpa & Hqb & Npq & Ga & Gb & Go).
  assert (Ia : In a js) by (apply (Permutation_in _ P); eapply nth_error_In; eassumption). assert (Ib : In b js) by (apply (Permutation_in _ P); eapply nth_error_In; eassumption).
  apply In_nth_error in Ia as (pa & Ia). apply In_nth_error in Ib as (pb & Ib).
  assert (Nab : pa <> pb). { intros <-. assert (a = b) as -> by congruence. apply Npq. apply (proj1 (NoDup_nth_error _) (runs_NoDup py_str o drawn path)); [apply nth_error_Some; congruence | congruence]. }
  destruct (proj1 (Forall2_nth _ _ _ G) _ _ Ia) as (ra & Ra & A1 & A2 & _). destruct (proj1 (Forall2_nth _ _ _ G) _ _ Ib) as (rb & Rb & B1 & B2 & _).
  assert (Sa : same_index veq (val v1 (frame_row ra), val v2 (frame_row ra)) (val v1 (frame_row rb), val v2 (frame_row rb)) = true /\ same_index veq (val v1 (frame_row rb), val v2 (frame_row rb)) (val v1 (frame_row ra), val v2 (frame_row ra)) = true).
  { assert (Q : forall n, n = v1 \/ n = v2 -> veq (val n (frame_row ra)) (val n (frame_row rb)) = true).
    { intros n Jn'. assert (An : sget a n = Some (val n (frame_row ra))) by (destruct Jn' as [-> | ->]; assumption). assert (Bn : sget b n = Some (val n (frame_row rb))) by (destruct Jn' as [-> | ->]; assumption).
      destruct (string_dec n v) as [->|Nv]; [congruence|]. assert (Eq : sget a n = sget b n) by (apply Go; [destruct Jn' as [-> | ->]; assumption | assumption]). rewrite An, Bn in Eq. injection Eq as ->. apply V. }
    unfold same_index. cbn [fst snd]. split; apply andb_true_iff; split; rewrite ?Q; auto; rewrite Sy; apply Q; auto. }
  assert (Ed : duplicates veq (map (fun r => (val v1 r, val v2 r)) (data_frame out)) = true); [|now rewrite Ed].
  assert (N : forall k r, nth_error out k = Some r -> nth_error (map (fun r => (val v1 r, val v2 r)) (data_frame out)) k = Some (val v1 (frame_row r), val v2 (frame_row r))) by (intros k r E; unfold data_frame; now rewrite !nth_error_map, E).
  apply duplicates_spec. destruct (Nat.lt_total pa pb) as [L|[L|L]]; [|contradiction|].
  - exists pa, pb. eexists. eexists. split; [exact L|]. split; [apply N; exact Ra|]. split; [apply N; exact Rb | apply Sa].
  - exists pb, pa. eexists. eexists. split; [exact L|]. split; [apply N; exact Rb|]. split; [apply N; exact Ra | apply Sa].
Qed.

(** * Files *)
Lemma sapp_assoc a b c : ((a ++ b) ++ c = a ++ b ++ c)%string.
Proof. induction a as [|x a IH]; cbn; [reflexivity | now rewrite IH]. Qed.
Lemma sapp_cancel a b c : (a ++ b = a ++ c)%string -> b = c.
Proof. induction a as [|x a IH]; cbn; [auto|]. intros E. injection E as E. auto. Qed.
Lemma has_dash_app a b : has_dash (a ++ b) = has_dash a || has_dash b.
Proof. induction a as [|x a IH]; cbn; [reflexivity|]. now rewrite IH, orb_assoc. Qed.
(** the last dash cuts a name in one way *)
Lemma cut_last a b x y : has_dash x = false -> has_dash y = false -> (a ++ "-" ++ x = b ++ "-" ++ y)%string -> a = b /\ x = y.
Proof.
  revert b. induction a as [|c a IH]; intros [|c' b] H H' E; cbn [append] in E.
  - injection E as ->. auto.
  - injection E as _ E. subst x. rewrite has_dash_app in H. cbn in H. rewrite orb_true_r in H. discriminate.
  - injection E as _ E. subst y. rewrite has_dash_app in H'. cbn in H'. rewrite orb_true_r in H'. discriminate.
  - injection E as -> E. destruct (IH b H H' E) as [-> ->]. auto.
Qed.
Lemma option_no_dash x : In x script_names -> has_dash (x ++ ".png") = false.
Proof. intros J. rewrite has_dash_app. assert (B : forallb (fun n => negb (has_dash n)) script_names = true) by reflexivity. apply (proj1 (forallb_forall _ _) B) in J. apply negb_true_iff in J. now rewrite J. Qed.
Lemma png_cancel x y : (x ++ ".png" = y ++ ".png")%string -> x = y.
Proof.
  revert y. induction x as [|c x IH]; intros [|c' y] E; cbn [append] in E; [reflexivity | | |injection E as -> E; f_equal; auto].
  - exfalso. injection E as _ E. apply (f_equal String.length) in E. assert (L : forall a b, String.length (a ++ b) = String.length a + String.length b) by (clear; induction a; intros; cbn; [reflexivity | now rewrite IHa]). rewrite L in E. cbn in E. lia.
  - exfalso. injection E as _ E. apply (f_equal String.length) in E. assert (L : forall a b, String.length (a ++ b) = String.length a + String.length b) by (clear; induction a; intros; cbn; [reflexivity | now rewrite IHa]). rewrite L in E. cbn in E. lia.
Qed.
Lemma scatter_file_inj id m x m' x' : In x script_names -> In x' script_names -> scatter_file id m x = scatter_file id m' x' -> m = m' /\ x = x'.
Proof.
  intros J J' E. unfold scatter_file in E. apply sapp_cancel in E. apply (sapp_cancel "-"%string) in E.
  assert (S1 : forall m x, (m ++ "-per-" ++ x ++ ".png" = (m ++ "-" ++ "per") ++ "-" ++ (x ++ ".png"))%string) by (intros a b; rewrite !sapp_assoc; reflexivity). rewrite !S1 in E.
  apply cut_last in E as [E Ex]; [|now apply option_no_dash..]. apply png_cancel in Ex. apply cut_last in E as [E _]; [auto | reflexivity..].
Qed.
Lemma heatmap_file_inj m m' v1 v2 : heatmap_file m v1 v2 = heatmap_file m' v1 v2 -> m = m'.
Proof.
  unfold heatmap_file. intros E. apply sapp_cancel in E. revert m' E. set (t := ("-" ++ v1 ++ "-" ++ v2 ++ ".png")%string). induction m as [|c m IH]; intros [|c' m'] E; cbn [append] in E; [reflexivity | | | injection E as -> E; f_equal; auto];
  exfalso; apply (f_equal String.length) in E; cbn [String.length] in E; assert (L : forall a b, String.length (a ++ b) = String.length a + String.length b) by (clear; induction a; intros; cbn; [reflexivity | now rewrite IHa]); rewrite L in E; lia.
Qed.
Lemma scatter_not_heatmap id m x m' v1 v2 : In x script_names -> In v1 script_names -> In v2 script_names -> scatter_file id m x <> heatmap_file m' v1 v2.
Proof.
  intros J J1 J2 E. unfold scatter_file, heatmap_file in E.
  assert (S1 : (id ++ "-" ++ m ++ "-per-" ++ x ++ ".png" = ((id ++ "-" ++ m) ++ "-" ++ "per") ++ "-" ++ (x ++ ".png"))%string) by (rewrite !sapp_assoc; reflexivity).
  assert (S2 : ("heatmap-" ++ m' ++ "-" ++ v1 ++ "-" ++ v2 ++ ".png" = (("heatmap-" ++ m') ++ "-" ++ v1) ++ "-" ++ (v2 ++ ".png"))%string) by (rewrite !sapp_assoc; reflexivity).
  rewrite S1, S2 in E. apply cut_last in E as [E _]; [|now apply option_no_dash..].
  assert (D : has_dash v1 = false) by (assert (D := option_no_dash v1 J1); rewrite has_dash_app in D; now apply orb_false_iff in D).
  apply cut_last in E as [_ E]; [|reflexivity | assumption]. subst v1. cbn in J1. intuition discriminate.
Qed.
Lemma mapM_NoDup {X Y} (f : X -> res (string * Y)) (name : X -> string) l ys : (forall x y, f x = Ok y -> fst y = name x) -> NoDup l -> (forall x x', In x l -> In x' l -> name x = name x' -> x = x') -> mapM f l = Ok ys -> map fst ys = map name l /\ NoDup (map fst ys).
Proof.
  intros Hf N I H. assert (E : map fst ys = map name l) by (apply mapM_ok in H; clear - H Hf; induction H; cbn; [reflexivity | f_equal; eauto]). split; [assumption|]. rewrite E. clear - N I. induction N as [|x l Nx N IH]; [constructor|]. cbn. constructor.
  - intros J. apply in_map_iff in J as (x' & E & J). apply Nx. rewrite (I x x'); [assumption | now left | now right | congruence].
  - apply IH. intros; apply I; auto; now right.
Qed.

(** All figures are drawn, if no value is given twice (or not exactly two options take several values) and the metrics are numbers: one scatter plot for each option with several values and each metric,
    one heat map for each metric if exactly two options take several values; and no figure replaces another one. *)
Theorem C83_every_figure_has_its_file : forall nonneg veq batch_run_id py_str o drawn path metrics measure step out,
  py_equality veq -> plain_values o -> measured metrics measure -> results_of veq py_str o drawn path step measure out ->
  (forall job m u, sget (measure job) m = Some u -> exists b, nonneg u = Some b) -> script_jobs py_str o drawn path <> [] ->
  (forall v1 v2, variable_params o = [v1; v2] -> all_different veq (script_values o v1) /\ all_different veq (script_values o v2)) ->
  exists figures, batch_figures nonneg veq batch_run_id o (data_frame out) = Ok figures /\ NoDup (map fst figures) /\
    (forall x m, several_values o x -> In m metrics -> exists points, scatter nonneg (data_frame out) x m = Ok points /\ In (scatter_file batch_run_id m x, Scatter points) figures) /\
    (forall v1 v2 m, variable_params o = [v1; v2] -> In m metrics -> exists cells, heatmap veq (data_frame out) v1 v2 m = Ok cells /\ In (heatmap_file m v1 v2, Heatmap cells) figures) /\
    List.length figures = List.length (variable_params o) * List.length metrics + if Nat.eqb (List.length (variable_params o)) 2 then List.length metrics else 0.
Proof.
  intros nonneg veq id py_str o drawn path metrics measure step out V Hp Hm Ho Hn Hr Hd.
  destruct (rows_are_runs veq py_str o drawn path measure step out V Hp Ho) as (js & P & F). fold (runs py_str o drawn path) in Hr.
  assert (Mr : model_reporters (data_frame out) = metrics).
  { destruct F as [|r job out' js' [Jj E] F]; [apply Permutation_sym, Permutation_nil in P; congruence|]. cbn [data_frame map model_reporters]. exact (reporters_of_row py_str o drawn path metrics measure step Hm r job Jj E). }
  assert (Nv : NoDup (variable_params o)) by (rewrite variable_params_list; apply NoDup_filter; cbn; repeat constructor; cbn; intuition discriminate).
  assert (Sv : forall x, In x (variable_params o) -> In x script_names) by (intros x J; apply variable_params_In in J as [J _]; exact J).
  assert (Nm : NoDup metrics) by apply Hm.
  unfold batch_figures. rewrite Mr.
  set (fs := fun p : string * string => let! pts := scatter nonneg (data_frame out) (fst p) (snd p) in Ok (scatter_file id (snd p) (fst p), Scatter pts)).
  destruct (mapM_total fs (list_prod (variable_params o) metrics)) as (sc & Es).
  { intros [z m] J. apply in_prod_iff in J as [J Jm]. unfold fs. cbn [fst snd]. apply variable_params_In in J. destruct (C83_points_are_the_runs nonneg veq py_str o drawn path metrics measure step out z m V Hp Hm Ho J Jm) as (pts & -> & _); [intros job u E; eapply Hn; eassumption|]. cbn [bind]. eauto. }
  rewrite Es. cbn [bind].
  assert (Np : NoDup (list_prod (variable_params o) metrics)).
  { clear - Nv Nm. induction Nv as [|x l N1 N IH]; [constructor|]. cbn. apply NoDup_app_intro; [|assumption|].
    - apply FinFun.Injective_map_NoDup; [|assumption]. intros a b E. congruence.
    - intros y J1 J2. apply in_map_iff in J1 as (b & <- & _). apply in_prod_iff in J2 as [J2 _]. contradiction. }
  destruct (mapM_NoDup fs (fun p => scatter_file id (snd p) (fst p)) (list_prod (variable_params o) metrics) sc) with (4 := Es) as [Ks Ns]; [| exact Np | |].
  { intros p y E. unfold fs in E. apply bind_ok in E as (pts & _ & E). injection E as <-. reflexivity. }
  { intros [x m] [x' m'] J J' E. apply in_prod_iff in J as [J _]. apply in_prod_iff in J' as [J' _]. cbn [fst snd] in E. apply scatter_file_inj in E as [-> ->]; auto. }
  assert (Is : forall x m, several_values o x -> In m metrics -> exists points, scatter nonneg (data_frame out) x m = Ok points /\ In (scatter_file id m x, Scatter points) sc).
  { intros x m J Jm. apply variable_params_In in J. assert (K : In (x, m) (list_prod (variable_params o) metrics)) by (now apply in_prod). apply In_nth_error in K as (i & K). apply mapM_ok in Es. destruct (proj2 (Forall2_nth _ _ _ Es) _ _ K) as (y & Y & E). unfold fs in E. cbn [fst snd] in E.
    apply bind_ok in E as (pts & Ep & E). injection E as <-. exists pts. split; [assumption | eapply nth_error_In; eassumption]. }
  assert (Ls : List.length sc = List.length (variable_params o) * List.length metrics) by (apply mapM_length in Es; rewrite Es; apply prod_length).
  destruct (variable_params o) as [|v1 [|v2 [|v3 vs]]] eqn:Hv.
  - exists sc. split; [reflexivity|]. split; [assumption|]. split; [assumption|]. split; [discriminate | cbn; rewrite Ls; cbn; lia].
  - exists sc. split; [reflexivity|]. split; [assumption|]. split; [assumption|]. split; [discriminate | cbn; rewrite Ls; cbn; lia].
  - destruct (Hd v1 v2 eq_refl) as [D1 D2]. set (fh := fun m => let! cells := heatmap veq (data_frame out) v1 v2 m in Ok (heatmap_file m v1 v2, Heatmap cells)).
    assert (Hs : forall x, several_values o x <-> x = v1 \/ x = v2) by (intros z; rewrite <- variable_params_In, Hv; cbn; intuition).
    destruct (mapM_total fh metrics) as (hm & Eh).
    { intros m Jm. unfold fh. destruct (C83_cells_are_the_runs veq py_str o drawn path metrics measure step out v1 v2 m V Hp Hm Ho Hs D1 D2 Jm) as (cells & -> & _). cbn [bind]. eauto. }
    rewrite Eh. cbn [bind]. exists (sc ++ hm)%list. split; [reflexivity|].
    destruct (mapM_NoDup fh (fun m => heatmap_file m v1 v2) metrics hm) with (4 := Eh) as [Kh Nh]; [| exact Nm | |].
    { intros p y E. unfold fh in E. apply bind_ok in E as (cells & _ & E). injection E as <-. reflexivity. }
    { intros m m' _ _ E. now apply heatmap_file_inj in E. }
    split; [|split; [|split]].
    + rewrite map_app. apply NoDup_app_intro; [assumption..|]. intros n J1 J2. rewrite Ks in J1. rewrite Kh in J2. apply in_map_iff in J1 as ([x m] & <- & J1). apply in_map_iff in J2 as (m' & E & _). apply in_prod_iff in J1 as [J1 _]. cbn [fst snd] in E.
      symmetry in E. revert E. apply scatter_not_heatmap; apply Sv; [assumption | now left | right; now left].
    + intros x m J Jm. destruct (Is x m J Jm) as (pts & E & I). exists pts. split; [assumption|]. apply in_or_app. now left.
    + intros a b m E Jm. injection E as <- <-. apply In_nth_error in Jm as (i & K). apply mapM_ok in Eh. destruct (proj2 (Forall2_nth _ _ _ Eh) _ _ K) as (y & Y & E). unfold fh in E. apply bind_ok in E as (cells & Ec & E). injection E as <-. exists cells. split; [assumption|]. apply in_or_app. right. eapply nth_error_In; eassumption.
    + rewrite app_length, Ls. apply mapM_length in Eh. rewrite Eh. cbn. lia.
  - exists sc. split; [reflexivity|]. split; [assumption|]. split; [assumption|]. split; [discriminate | cbn; rewrite Ls; cbn; lia].
Qed.

(** * A concrete batch *)
Definition demo_given : given := [("k", VList [VInt 10; VInt 20]); ("a0", VList [VAtom "0.1"; VAtom "0.3"]); ("seed", VInt 42)]%string%Z.
Definition demo_twice : given := [("k", VList [VInt 10; VInt 10]); ("a0", VList [VAtom "0.1"; VAtom "0.3"]); ("seed", VInt 42)]%string%Z.
Definition demo_metrics : list string := ["Pool count"; "Min-aggregate pledge"]%string.
(** the number of pools is k, and the second metric could not be computed when k = 10 (model_reporters.py:193) *)
Definition demo_measure (job : kwargs) : kwargs :=
  [("Pool count"%string, match sget job "k" with Some v => v | None => VInt 0 end); ("Min-aggregate pledge"%string, match sget job "k" with Some (VInt 10) => VInt (-2) | _ => VInt 7 end)].
Definition demo_veq (a b : value) : bool := match a, b with VInt x, VInt y => Z.eqb x y | VStr x, VStr y | VAtom x, VAtom y => String.eqb x y | VList x, VList y => true | _, _ => false end.
Definition demo_nonneg (v : value) : option bool := match v with VInt z => Some (Z.leb 0 z) | VAtom _ => Some true | _ => None end.
Definition demo_out (o : given) : res (list (row kwargs)) := collect_results demo_veq (map (worker (fun job => [step_data 5 job (demo_measure job)])) (script_jobs (fun _ => "x"%string) o 0 "out"%string)).
Example C83_instance : py_equality demo_veq /\ (forall a b, demo_veq a b = demo_veq b a) /\ plain_values demo_given /\ plain_values demo_twice /\ measured demo_metrics demo_measure /\
  variable_params demo_given = ["k"; "a0"]%string /\ variable_params demo_twice = ["k"; "a0"]%string /\
  all_different demo_veq (script_values demo_given "k") /\ all_different demo_veq (script_values demo_given "a0") /\
  (exists out, demo_out demo_given = Ok out /\
    scatter demo_nonneg (data_frame out) "k" "Pool count" = Ok [(VInt 10, VInt 10); (VInt 10, VInt 10); (VInt 20, VInt 20); (VInt 20, VInt 20)]%Z /\
    scatter demo_nonneg (data_frame out) "a0" "Min-aggregate pledge" = Ok [(VAtom "0.1", VInt 7); (VAtom "0.3", VInt 7)]%Z /\
    heatmap demo_veq (data_frame out) "k" "a0" "Min-aggregate pledge" = Ok [((VInt 10, VAtom "0.1"), VInt (-2)); ((VInt 10, VAtom "0.3"), VInt (-2)); ((VInt 20, VAtom "0.1"), VInt 7); ((VInt 20, VAtom "0.3"), VInt 7)]%Z) /\
  exists out, demo_out demo_twice = Ok out /\ batch_figures demo_nonneg demo_veq "batch-run" demo_twice (data_frame out) = Err ValueError.
Proof.
  assert (Pl : forall o, (forall n, In n script_names -> forallb hashable (script_values o n) = true) -> plain_values o) by (intros o H name v J K; exact (proj1 (forallb_forall _ _) (H name J) v K)).
  split; [|split; [|split; [|split; [|split; [|split; [|split; [|split; [|split; [|split]]]]]]]]].
  - split; [|reflexivity]. intros [s|z|s|l]; cbn; [apply String.eqb_refl | apply Z.eqb_refl | apply String.eqb_refl | reflexivity].
  - intros [s|z|s|l] [s'|z'|s'|l']; cbn; try reflexivity; [apply String.eqb_sym | apply Z.eqb_sym | apply String.eqb_sym].
  - apply Pl. apply forallb_forall. vm_compute. reflexivity.
  - apply Pl. apply forallb_forall. vm_compute. reflexivity.
  - split; [repeat constructor; cbn; intuition discriminate|]. split; [|reflexivity]. intros n [<-|[<-|[]]]; cbn; tauto.
  - reflexivity.
  - reflexivity.
  - intros [|[|[|i]]] [|[|[|j]]] a b Ha Hb; cbn in *; try discriminate; injection Ha as <-; injection Hb as <-; cbn; congruence.
  - intros [|[|[|i]]] [|[|[|j]]] a b Ha Hb; cbn in *; try discriminate; injection Ha as <-; injection Hb as <-; cbn; congruence.
  - eexists. split; [vm_compute; reflexivity|]. split; [|split]; vm_compute; reflexivity.
  - eexists. split; [vm_compute; reflexivity|]. vm_compute. reflexivity.
Qed.
