(** The batch runner, csv and sequence files: C41-C44, C52. *)
From Coq Require Import ZArith List Bool String Ascii Lia Permutation DecimalString DecimalZ.
From Verif Require Import Num Py Batch ListFacts PropSched.
Import ListNotations.
Open Scope nat_scope.

(** * C41 *)
(** the values a parameter takes in the runs of a batch: the entries of a list; anything else is one value *)
Definition offered (v : value) : list value := match v with VList l => l | _ => [v] end.
(** names that the batch runner adds itself *)
Definition reserved : list string := ["seed"; "seq_id"; "execution_id"]%string.
(** a cell of the grid: for each parameter, the position of one of its values *)
Definition cell_of (parameters : kwargs) (c : list nat) : Prop := Forall2 (fun i p => i < List.length (offered (snd p))) c parameters.

Section SDict.
  Context {V : Type}.
  Implicit Types d : sdict V.
  Lemma sget_sset_eq d k v : sget (sset d k v) k = Some v.
  Proof. induction d as [|[k' v'] d IH]; cbn; [now rewrite String.eqb_refl|]. destruct (String.eqb_spec k' k); cbn; [now rewrite String.eqb_refl|]. destruct (String.eqb_spec k' k); [contradiction | apply IH]. Qed.
  Lemma sget_sset_ne d k k' v : k <> k' -> sget (sset d k v) k' = sget d k'.
  Proof.
    intros N. induction d as [|[j v'] d IH]; cbn.
    - destruct (String.eqb_spec k k'); [contradiction | reflexivity].
    - destruct (String.eqb_spec j k) as [->|]; cbn; [destruct (String.eqb_spec k k'); [contradiction | reflexivity]|]. destruct (String.eqb_spec j k'); [reflexivity | apply IH].
  Qed.
  Lemma sget_nth d : NoDup (map fst d) -> forall j k v, nth_error d j = Some (k, v) -> sget d k = Some v.
  Proof.
    induction d as [|[k' v'] d IH]; intros N j k v H; [destruct j; discriminate|]. cbn in N. apply NoDup_cons_iff in N as [N1 N2]. cbn. destruct j as [|j]; cbn in H.
    - injection H as -> ->. now rewrite String.eqb_refl.
    - destruct (String.eqb_spec k' k) as [->|]; [|eapply IH; eassumption]. exfalso. apply N1. apply nth_error_In in H. exact (in_map fst _ _ H).
  Qed.
  (** position of a key *)
  Lemma sset_keys d k v : map fst (sset d k v) = if existsb (String.eqb k) (map fst d) then map fst d else (map fst d ++ [k])%list.
  Proof.
    induction d as [|[k' v'] d IH]; cbn; [reflexivity|]. rewrite (String.eqb_sym k k'). destruct (String.eqb_spec k' k) as [->|]; cbn; [reflexivity|]. rewrite IH. destruct (existsb (String.eqb k) (map fst d)); reflexivity.
  Qed.
  Lemma sget_some_nth d k v : sget d k = Some v -> exists j, nth_error d j = Some (k, v) /\ forall d' : sdict V, map fst d' = map fst d -> forall v', sget d' k = Some v' -> nth_error d' j = Some (k, v').
  Proof.
    induction d as [|[k' v0] d IH]; cbn; [discriminate|]. destruct (String.eqb_spec k' k) as [->|Ne]; intros H.
    - injection H as ->. exists 0. split; [reflexivity|]. intros [|[k2 v2] d'] E v' H; [discriminate|]. cbn in E. injection E as -> E. cbn in H. rewrite String.eqb_refl in H. injection H as ->. reflexivity.
    - destruct (IH H) as (j & J1 & J2). exists (S j). split; [assumption|]. intros [|[k2 v2] d'] E v' H'; [discriminate|]. cbn in E. injection E as -> E. cbn in H'. destruct (String.eqb_spec k' k); [contradiction|]. cbn. now apply J2.
  Qed.
End SDict.

(** ** products *)
Fixpoint picks {X} (ls : list (list X)) (c : list nat) : list X :=
  match ls, c with l :: ls, i :: c => match nth_error l i with Some x => x :: picks ls c | None => picks ls c end | _, _ => [] end.
Lemma flat_map_map {X Y Z} (f : Y -> list Z) (g : X -> Y) l : flat_map f (map g l) = flat_map (fun x => f (g x)) l.
Proof. induction l as [|x l IH]; cbn; [reflexivity|]. now rewrite IH. Qed.
Lemma seq_nth_all {X} (l : list X) : forall (Y : Type) (f : X -> list Y), flat_map f l = flat_map (fun i => match nth_error l i with Some x => f x | None => [] end) (seq 0 (List.length l)).
Proof.
  induction l as [|x l IH]; intros Y f; [reflexivity|]. cbn [List.length seq flat_map]. cbn [nth_error]. f_equal. rewrite <- seq_shift, flat_map_map. apply IH.
Qed.
Definition grid {X} (ls : list (list X)) : list (list nat) := product (map (fun l => seq 0 (List.length l)) ls).
Lemma product_picks {X} (ls : list (list X)) : product ls = map (picks ls) (grid ls).
Proof.
  unfold grid. induction ls as [|l ls IH]; [reflexivity|]. cbn [product map]. rewrite IH. rewrite seq_nth_all. set (g := product (map (fun l0 => seq 0 (List.length l0)) ls)).
  assert (E : forall is_, (forall i, In i is_ -> i < List.length l) -> flat_map (fun i => match nth_error l i with Some x => map (cons x) (map (picks ls) g) | None => [] end) is_ = map (picks (l :: ls)) (flat_map (fun i => map (cons i) g) is_)).
  { induction is_ as [|i is_ IHi]; intros B; [reflexivity|]. cbn [flat_map]. rewrite map_app, IHi by (intros; apply B; now right). f_equal. specialize (B i (or_introl eq_refl)). apply nth_error_Some in B.
    destruct (nth_error l i) as [x|] eqn:En; [|congruence]. rewrite !map_map. apply map_ext. intros c. cbn. now rewrite En. }
  apply E. intros i J. apply in_seq in J. lia.
Qed.
Lemma grid_In {X} (ls : list (list X)) c : In c (grid ls) <-> Forall2 (fun i (l : list X) => i < List.length l) c ls.
Proof.
  unfold grid. revert c. induction ls as [|l ls IH]; intros c; cbn [map product].
  - split; [intros [<-|[]]; constructor | intros H; inversion H; now left].
  - rewrite in_flat_map. split.
    + intros (i & J & K). apply in_map_iff in K as (c' & <- & K). apply IH in K. apply in_seq in J. constructor; [lia | assumption].
    + intros H. inversion H as [|i l' c' ls' Hi Hc]; subst. exists i. split; [apply in_seq; lia|]. apply in_map. now apply IH.
Qed.
Lemma product_NoDup {X} (ls : list (list X)) : (forall l, In l ls -> NoDup l) -> NoDup (product ls).
Proof.
  induction ls as [|l ls IH]; intros H; cbn; [constructor; [easy | constructor]|]. assert (Nl := H l (or_introl eq_refl)). assert (Np := IH (fun l' J => H l' (or_intror J))). clear H IH.
  induction l as [|x l IHl]; cbn; [constructor|]. apply NoDup_cons_iff in Nl as [N1 N2]. apply NoDup_app_intro.
  - apply FinFun.Injective_map_NoDup; [|assumption]. intros a b E. now injection E.
  - now apply IHl.
  - intros c J K. apply in_map_iff in J as (c1 & <- & _). apply in_flat_map in K as (y & Jy & K). apply in_map_iff in K as (c2 & E & _). injection E as -> _. contradiction.
Qed.
Lemma grid_NoDup {X} (ls : list (list X)) : NoDup (grid ls).
Proof. apply product_NoDup. intros l J. apply in_map_iff in J as (l' & <- & _). apply seq_NoDup. Qed.
Lemma picks_nth {X} (ls : list (list X)) c : Forall2 (fun i (l : list X) => i < List.length l) c ls -> Forall2 (fun l x => In x l) ls (picks ls c) /\
  forall j l i x, nth_error ls j = Some l -> nth_error c j = Some i -> nth_error l i = Some x -> nth_error (picks ls c) j = Some x.
Proof.
  induction 1 as [|i l c ls Hi H IH]; [split; [constructor | intros [|j] l i x; discriminate]|]. destruct IH as [I1 I2]. cbn. apply nth_error_Some in Hi. destruct (nth_error l i) as [x|] eqn:E; [|congruence]. split.
  - constructor; [eapply nth_error_In; eassumption | assumption].
  - intros [|j] l' i' x' H1 H2 H3; cbn in *; [congruence | eapply I2; eassumption].
Qed.
Lemma flat_list_prod {X Y Z} (f : X -> Y -> Z) (l : list X) (l' : list Y) : flat_map (fun x => map (f x) l') l = map (fun p => f (fst p) (snd p)) (list_prod l l').
Proof. induction l as [|x l IH]; [reflexivity|]. cbn. rewrite map_app, IH, map_map. reflexivity. Qed.

Section Jobs.
  Variable py_str : value -> string.
  Variables (parameters : kwargs) (iterations : nat) (initial_seed : Z).
  Hypothesis Names : NoDup (map fst parameters).
  Hypothesis Free : forall n, In n reserved -> ~ In n (map fst parameters).
  Let ls := map (fun p => fst (all_values p)) parameters.
  Let fixed := snd (make_model_kwargs parameters).
  Let base (c : list nat) := picks ls c.
  Let seeded (x : list nat * nat) := sset (base (fst x)) "seed"%string (VInt (initial_seed + Z.of_nat (snd x))).
  Lemma offered_all p : fst (all_values p) = map (fun v => (fst p, v)) (offered (snd p)).
  Proof. unfold all_values, offered. destruct p as [n v]. destruct v; reflexivity. Qed.
  Lemma cells_ok c : In c (grid ls) <-> cell_of parameters c.
  Proof.
    rewrite grid_In. unfold ls, cell_of. clear. revert c. induction parameters as [|p ps IH]; intros c; cbn [map]; [split; intros H; inversion H; constructor|].
    split; intros H; inversion H as [|i l c' ls' Hi Hc]; subst; constructor; try (now apply IH).
    - rewrite offered_all, map_length in Hi. exact Hi.
    - rewrite offered_all, map_length. exact Hi.
  Qed.
  Lemma base_keys c : cell_of parameters c -> map fst (base c) = map fst parameters.
  Proof.
    intros H. apply cells_ok in H. apply grid_In in H. apply picks_nth in H as [H _]. unfold base, ls in *. clear - H. remember (picks _ c) as kw. clear Heqkw. revert kw H.
    induction parameters as [|p ps IH]; intros kw H; inversion H as [|l x ls' kw' Hx Hk]; subst; [reflexivity|]. cbn. f_equal; [|now apply IH]. rewrite offered_all in Hx. apply in_map_iff in Hx as (v & <- & _). reflexivity.
  Qed.
  Lemma base_values c kw : cell_of parameters c -> In kw (base c) -> exists p, In p parameters /\ fst kw = fst p /\ In (snd kw) (offered (snd p)).
  Proof.
    intros H J. apply cells_ok in H. apply grid_In in H. apply picks_nth in H as [H _]. unfold base, ls in *. clear - H J. remember (picks _ c) as l. clear Heql. revert l J H.
    induction parameters as [|p ps IH]; intros l J H; inversion H as [|l' x ls' kw' Hx Hk]; subst; [destruct J|]. destruct J as [<-|J].
    - rewrite offered_all in Hx. apply in_map_iff in Hx as (v & <- & Hv). exists p. split; [now left | now split].
    - destruct (IH _ J Hk) as (p' & P1 & P2). exists p'. split; [now right | exact P2].
  Qed.
  Lemma number_nth fx : forall l i pos, nth_error (number py_str fx i l) pos =
    option_map (fun params => sset (sset params "seq_id" (VInt (Z.of_nat (i + pos + 1)))) "execution_id" (VStr (make_execution_id py_str params fx))) (nth_error l pos).
  Proof.
    induction l as [|kw l IH]; intros i pos; [now destruct pos|]. destruct pos as [|pos]; cbn [number nth_error option_map]; [now rewrite Nat.add_0_r|]. rewrite IH. now replace (S i + pos + 1) with (i + S pos + 1) by lia.
  Qed.
  Lemma jobs_nth pos : nth_error (jobs py_str parameters iterations initial_seed) pos =
    option_map (fun x => sset (sset (seeded x) "seq_id" (VInt (Z.of_nat (pos + 1)))) "execution_id" (VStr (make_execution_id py_str (seeded x) fixed))) (nth_error (list_prod (grid ls) (seq 0 iterations)) pos).
  Proof.
    unfold jobs, make_model_kwargs. cbn [fst snd]. rewrite number_nth. cbn [plus]. unfold add_seeds. fold ls. rewrite product_picks, flat_map_map.
    rewrite (flat_list_prod (fun c i => sset (picks ls c) "seed"%string (VInt (initial_seed + Z.of_nat i)))). rewrite nth_error_map. destruct (nth_error (list_prod (grid ls) (seq 0 iterations)) pos) as [x|]; reflexivity.
  Qed.
  Lemma jobs_length : List.length (jobs py_str parameters iterations initial_seed) = List.length (list_prod (grid ls) (seq 0 iterations)).
  Proof.
    assert (E : forall n, n < List.length (jobs py_str parameters iterations initial_seed) <-> n < List.length (list_prod (grid ls) (seq 0 iterations))).
    { intros n. rewrite <- !nth_error_Some, jobs_nth. destruct (nth_error (list_prod (grid ls) (seq 0 iterations)) n); cbn; [split; discriminate | tauto]. }
    set (a := List.length (jobs _ _ _ _)) in *. set (b := List.length (list_prod _ _)) in *. destruct (Nat.lt_trichotomy a b) as [L|[L|L]]; [|assumption|]; apply E in L; lia.
  Qed.
  Lemma job_fields pos job : nth_error (jobs py_str parameters iterations initial_seed) pos = Some job ->
    sget job "seq_id" = Some (VInt (Z.of_nat (pos + 1))) /\ map fst job = (map fst parameters ++ reserved)%list /\
    (exists e, sget job "execution_id" = Some (VStr e)) /\
    exists c i, nth_error (list_prod (grid ls) (seq 0 iterations)) pos = Some (c, i) /\ cell_of parameters c /\ sget job "seed" = Some (VInt (initial_seed + Z.of_nat i)) /\
      (forall n, ~ In n reserved -> sget job n = sget (base c) n) /\ (forall v, In v (map snd job) -> In v (map snd (base c)) \/ exists z, v = VInt z \/ exists s, v = VStr s).
  Proof.
    rewrite jobs_nth. destruct (nth_error (list_prod _ _) pos) as [[c i]|] eqn:E; [|discriminate]. cbn [option_map]. unfold seeded at 1. cbn [fst snd]. intros H. injection H as <-.
    set (ex := make_execution_id _ _ _). clearbody ex. assert (J := nth_error_In _ _ E). apply in_prod_iff in J as [J _]. apply cells_ok in J. assert (K := base_keys c J).
    assert (N : forall n, In n reserved -> existsb (String.eqb n) (map fst parameters) = false). { intros n Jn. apply Free in Jn. destruct (existsb (String.eqb n) (map fst parameters)) eqn:Ex; [|reflexivity]. apply existsb_exists in Ex as (m & M1 & M2). apply String.eqb_eq in M2 as <-. contradiction. }
    assert (N1 := N "seed"%string (or_introl eq_refl)). assert (N2 := N "seq_id"%string (or_intror (or_introl eq_refl))). assert (N3 := N "execution_id"%string (or_intror (or_intror (or_introl eq_refl)))).
    split; [rewrite sget_sset_ne by discriminate; apply sget_sset_eq|]. split.
    { rewrite sset_keys, sset_keys, sset_keys, K, N1. rewrite (existsb_app (String.eqb "seq_id")), N2. cbn [existsb String.eqb Ascii.eqb Bool.eqb orb]. rewrite !(existsb_app (String.eqb "execution_id")), N3. cbn [existsb String.eqb Ascii.eqb Bool.eqb orb]. rewrite <- !app_assoc. reflexivity. }
    split; [exists ex; apply sget_sset_eq|]. exists c, i. split; [reflexivity|]. split; [assumption|]. split; [rewrite !sget_sset_ne by discriminate; apply sget_sset_eq|]. split.
    - intros n Jn. rewrite !sget_sset_ne; [reflexivity | intros <-; apply Jn; cbn; auto..].
    - assert (G : forall (d : kwargs) k x v, In v (map snd (sset d k x)) -> In v (map snd d) \/ v = x).
      { clear. induction d as [|[k' v'] d IH]; intros k x v; cbn; [intros [<-|[]]; now right|]. destruct (String.eqb k' k); cbn; [intros [<-|J]; auto|]. intros [<-|J]; [auto|]. apply IH in J as [J|J]; auto. }
      intros v Jv. apply G in Jv as [Jv| ->]; [|right; exists 0%Z; right; eauto]. apply G in Jv as [Jv| ->]; [|right; eauto]. apply G in Jv as [Jv| ->]; [now left | right; eauto].
  Qed.
End Jobs.

(** the runs are the cells of the grid, each once per iteration, in a fixed order and numbered from 1 *)
Theorem C41_runs_cover_the_grid : forall py_str (parameters : kwargs) iterations initial_seed, NoDup (map fst parameters) -> (forall n, In n reserved -> ~ In n (map fst parameters)) ->
  exists cells : list (list nat), NoDup cells /\ (forall c, In c cells <-> cell_of parameters c) /\
    let runs := list_prod cells (seq 0 iterations) in
    List.length (jobs py_str parameters iterations initial_seed) = List.length runs /\
    forall pos job, nth_error (jobs py_str parameters iterations initial_seed) pos = Some job ->
      exists c i, nth_error runs pos = Some (c, i) /\
        sget job "seed" = Some (VInt (initial_seed + Z.of_nat i)) /\
        sget job "seq_id" = Some (VInt (Z.of_nat (pos + 1))) /\
        forall j name v ix x, nth_error parameters j = Some (name, v) -> nth_error c j = Some ix -> nth_error (offered v) ix = Some x -> sget job name = Some x.
Proof.
  intros py_str parameters iterations initial_seed N F. exists (grid (map (fun p => fst (all_values p)) parameters)). split; [apply grid_NoDup|]. split; [intros c; apply cells_ok|]. cbv zeta. split; [apply jobs_length|].
  intros pos job H. destruct (job_fields py_str _ _ _ F _ _ H) as (H1 & _ & _ & c & i & E & Hc & H2 & H3 & _). exists c, i. split; [assumption|]. split; [assumption|]. split; [assumption|].
  intros j name v ix x J1 J2 J3. rewrite H3. 2:{ intros K. apply F in K. apply K. apply nth_error_In in J1. exact (in_map fst _ _ J1). }
  eapply sget_nth; [rewrite base_keys by exact Hc; exact N|]. apply cells_ok in Hc. apply grid_In in Hc. apply picks_nth in Hc as [_ Hc].
  apply (Hc j (map (fun v => (name, v)) (offered v)) ix); [|assumption | now apply map_nth_error]. rewrite (map_nth_error _ _ _ J1). f_equal. now rewrite offered_all.
Qed.
Example C41_instance : let ps := [("k", VList [VInt 100; VInt 200]); ("stake_distr_source", VStr "Pareto"); ("a0", VAtom "0.3"); ("n", VList [VInt 5; VInt 6; VInt 7])]%string%Z in
  NoDup (map fst ps) /\ (forall n, In n reserved -> ~ In n (map fst ps)) /\ List.length (jobs (fun _ => "x"%string) ps 2 40) = 12 /\
  nth_error (jobs (fun _ => "x"%string) ps 2 40) 9 = Some [("k", VInt 200); ("stake_distr_source", VStr "Pareto"); ("a0", VAtom "0.3"); ("n", VInt 6); ("seed", VInt 41); ("seq_id", VInt 10); ("execution_id", VStr "k-x-n-x-seed-x")]%string%Z.
Proof.
  cbv zeta. split; [|split; [|split; reflexivity]].
  - cbn. repeat constructor; cbn; intuition discriminate.
  - intros n [<-|[<-|[<-|[]]]]; cbn; intuition discriminate.
Qed.

(** ** directories *)
Fixpoint has_dash (s : string) : bool := match s with EmptyString => false | String c s => Ascii.eqb c "-" || has_dash s end.
Lemma cut_dash s s' x y : has_dash s = false -> has_dash s' = false -> (s ++ "-" ++ x = s' ++ "-" ++ y)%string -> s = s'.
Proof.
  revert s'. induction s as [|c s IH]; intros [|c' s'] H H' E; cbn in *; [reflexivity | | |].
  - injection E as <- _. discriminate.
  - injection E as -> _. discriminate.
  - injection E as -> E. apply orb_false_iff in H as [_ H]. apply orb_false_iff in H' as [_ H']. f_equal. now apply IH.
Qed.
Lemma uint_no_dash d : has_dash (NilEmpty.string_of_uint d) = false.
Proof. induction d; cbn; auto. Qed.
Lemma str_nat_no_dash n : has_dash (str_int (Z.of_nat n)) = false.
Proof. unfold str_int. destruct n; [reflexivity|]. cbn. apply uint_no_dash. Qed.
Lemma str_int_inj z z' : str_int z = str_int z' -> z = z'.
Proof.
  unfold str_int. intros E. apply (f_equal NilEmpty.int_of_string) in E. rewrite !NilEmpty.isi in E. injection E as E. apply (f_equal Z.of_int) in E. now rewrite !DecimalZ.of_to in E.
Qed.
Theorem C41_directories_are_distinct : forall py_str (parameters : kwargs) iterations initial_seed generated fresh pos pos' job job' d d', (forall n, In n reserved -> ~ In n (map fst parameters)) ->
  nth_error (jobs py_str parameters iterations initial_seed) pos = Some job -> nth_error (jobs py_str parameters iterations initial_seed) pos' = Some job' ->
  run_directory (generated job) fresh job = Some d -> run_directory (generated job') fresh job' = Some d' -> d = d' -> pos = pos'.
Proof.
  intros py_str parameters iterations initial_seed generated fresh pos pos' job job' d d' F H H' D D' E. destruct (job_fields py_str _ _ _ F _ _ H) as (S1 & _ & (e & X1) & _). destruct (job_fields py_str _ _ _ F _ _ H') as (S2 & _ & (e' & X2) & _).
  unfold run_directory in D, D'. rewrite S1, X1 in D. rewrite S2, X2 in D'. assert (Nz : forall n, (Z.of_nat (n + 1) =? -1)%Z = false) by (intros n; apply Z.eqb_neq; lia). rewrite Nz in D, D'. injection D as <-. injection D' as <-.
  apply cut_dash in E; [|apply str_nat_no_dash..]. apply str_int_inj in E. lia.
Qed.
Theorem C41_every_run_has_a_directory : forall py_str (parameters : kwargs) iterations initial_seed generated fresh pos job, (forall n, In n reserved -> ~ In n (map fst parameters)) ->
  nth_error (jobs py_str parameters iterations initial_seed) pos = Some job -> exists d, run_directory generated fresh job = Some d.
Proof.
  intros py_str parameters iterations initial_seed generated fresh pos job F H. destruct (job_fields py_str _ _ _ F _ _ H) as (S1 & _ & (e & X1) & _). unfold run_directory. rewrite S1, X1. eauto.
Qed.

(** the directory is named after the number of the run and the identifier the user gave, or the generated one if the user gave none ("" or the default "temp") *)
Theorem C41_directory_is_named_after_the_identifier : forall generated fresh kw s e, sget kw "seq_id" = Some (VInt s) -> sget kw "execution_id" = Some (VStr e) ->
  exists number name, run_directory generated fresh kw = Some (String.append (str_int number) (String.append "-" name)) /\ (s = (-1)%Z -> number = fresh) /\ (s <> (-1)%Z -> number = s) /\
  (e = ""%string \/ e = "temp"%string -> name = generated) /\ (e <> ""%string -> e <> "temp"%string -> name = e).
Proof.
  intros generated fresh kw s e S X. unfold run_directory. rewrite S, X. do 2 eexists. split; [reflexivity|]. split; [intros ->; reflexivity|]. split; [intros N; now apply Z.eqb_neq in N as ->|].
  split; [intros [-> | ->]; reflexivity|]. intros N1 N2. apply String.eqb_neq in N1, N2. now rewrite N1, N2.
Qed.

(** * C42, C52 *)
(** what == does on the values that occur: reflexive (tuples compare identical entries as equal), and integers are compared as integers *)
Definition py_equality (veq : value -> value -> bool) : Prop := (forall v, veq v v = true) /\ forall a b, veq (VInt a) (VInt b) = Z.eqb a b.
(** a worker's result: the values of the arguments and the rows of the run *)
Definition worker {R} (rows : kwargs -> list R) (job : kwargs) : list value * list R := (map snd job, rows job).

Lemma tuple_eq_refl veq t : py_equality veq -> tuple_eq veq t t = true.
Proof. intros [H _]. induction t as [|v t IH]; cbn; [reflexivity|]. now rewrite H, IH. Qed.
Lemma tuple_eq_nth veq t t' : tuple_eq veq t t' = true -> forall j v v', nth_error t j = Some v -> nth_error t' j = Some v' -> veq v v' = true.
Proof.
  revert t'. induction t as [|x t IH]; intros [|y t'] H [|j] v v' J J'; cbn in *; try discriminate; apply andb_true_iff in H as [H1 H2]; [congruence | eapply IH; eassumption].
Qed.
Lemma jobs_differ py_str parameters iterations initial_seed veq : (forall n, In n reserved -> ~ In n (map fst parameters)) -> py_equality veq ->
  forall pos pos' job job', nth_error (jobs py_str parameters iterations initial_seed) pos = Some job -> nth_error (jobs py_str parameters iterations initial_seed) pos' = Some job' ->
  tuple_eq veq (map snd job) (map snd job') = true -> pos = pos'.
Proof.
  intros F [_ V] pos pos' job job' H H' E. destruct (job_fields py_str _ _ _ F _ _ H) as (S1 & K1 & _). destruct (job_fields py_str _ _ _ F _ _ H') as (S2 & K2 & _).
  destruct (sget_some_nth _ _ _ S1) as (j & J1 & J2). assert (J3 := J2 job' (eq_trans K2 (eq_sym K1)) _ S2). apply (map_nth_error snd) in J1. apply (map_nth_error snd) in J3. assert (X := tuple_eq_nth _ _ _ E _ _ _ J1 J3). cbn [snd] in X. rewrite V in X. apply Z.eqb_eq in X. lia.
Qed.
Lemma nth_perm {X} (l l' : list X) : Permutation l l' -> (forall i j x y, nth_error l i = Some x -> nth_error l j = Some y -> x = y -> i = j) -> NoDup l'.
Proof. intros P H. eapply Permutation_NoDup; [exact P|]. apply NoDup_nth_error. intros i j L E. apply nth_error_Some in L. destruct (nth_error l i) as [x|] eqn:Ei; [|congruence]. symmetry in E. eapply H; eauto. Qed.

Section Collect.
  Variable R : Type.
  Variable veq : value -> value -> bool.
  Hypothesis V : py_equality veq.
  Lemma collect_fold : forall (todo : list (list value * list R)) counted next results,
    (forall run v, In run todo -> In v (fst run) -> hashable v = true) ->
    (forall run k, In run todo -> In k counted -> tuple_eq veq (fst run) k = false) ->
    (forall i j r r', nth_error todo i = Some r -> nth_error todo j = Some r' -> i <> j -> tuple_eq veq (fst r) (fst r') = false) ->
    exists counted', foldM (record_run veq) todo (counted, next, results) =
      Ok (counted', next + List.length todo, results ++ flat_map (fun x => map (mkRow (fst x) 0%Z) (snd (snd x))) (combine (seq next (List.length todo)) todo)).
  Proof.
    induction todo as [|run todo IH]; intros counted next results Hh Hc Hd.
    - exists counted. cbn. now rewrite Nat.add_0_r, List.app_nil_r.
    - cbn [foldM]. unfold record_run at 1. assert (E : forallb hashable (fst run) = true) by (apply forallb_forall; intros v J; eapply Hh; [now left | exact J]). rewrite E.
      assert (L : List.length (filter (tuple_eq veq (fst run)) (counted ++ [fst run])) = 1).
      { rewrite filter_app, app_length. replace (filter (tuple_eq veq (fst run)) counted) with (@nil (list value)); [cbn; now rewrite tuple_eq_refl|]. symmetry. assert (Hc' := fun k J => Hc run k (or_introl eq_refl) J). clear - Hc'. induction counted as [|k c IHc]; [reflexivity|]. cbn. rewrite Hc' by now left. apply IHc. intros; apply Hc'; now right. }
      rewrite L. change (Z.of_nat 1 - 1)%Z with 0%Z. cbn [bind]. destruct (IH (counted ++ [fst run]) (S next) (results ++ map (fun d => mkRow next 0 d) (snd run))) as (c' & Hf).
      + intros r v J. apply Hh. now right.
      + intros r k J Jk. apply in_app_or in Jk as [Jk|[<-|[]]]; [apply Hc; [now right | assumption]|]. apply In_nth_error in J as (i & J). apply (Hd (S i) 0 r run); [exact J | reflexivity | discriminate].
      + intros i j r r' J J' Ne. apply (Hd (S i) (S j)); [exact J | exact J' | congruence].
      + exists c'. rewrite Hf. cbn [List.length seq combine flat_map fst snd]. rewrite <- app_assoc. do 3 f_equal. lia.
  Qed.
End Collect.

Lemma combine_runs {R} (l : list (list value * list R)) : forall n, map run_data (flat_map (fun x => map (mkRow (fst x) 0%Z) (snd (snd x))) (combine (seq n (List.length l)) l)) = flat_map snd l.
Proof. induction l as [|r l IH]; intros n; cbn; [reflexivity|]. rewrite map_app, IH, map_map. cbn. now rewrite map_id. Qed.
Lemma combine_ids {R} (l : list (list value * list R)) : forall n t run, nth_error l t = Some run ->
  filter (fun r => Nat.eqb (run_id r) (n + t)) (flat_map (fun x => map (mkRow (fst x) 0%Z) (snd (snd x))) (combine (seq n (List.length l)) l)) = map (mkRow (n + t) 0%Z) (snd run).
Proof.
  assert (F0 : forall a b (rs : list R), filter (fun r => Nat.eqb (run_id r) a) (map (mkRow b 0%Z) rs) = if Nat.eqb b a then map (mkRow b 0%Z) rs else []).
  { intros a b. induction rs as [|x rs IH]; cbn; [now destruct (Nat.eqb b a)|]. rewrite IH. destruct (Nat.eqb b a); reflexivity. }
  assert (F1 : forall (l : list (list value * list R)) n a, a < n -> filter (fun r => Nat.eqb (run_id r) a) (flat_map (fun x => map (mkRow (fst x) 0%Z) (snd (snd x))) (combine (seq n (List.length l)) l)) = []).
  { induction l0 as [|r l0 IH]; intros n a L; cbn; [reflexivity|]. rewrite filter_app, F0, IH by lia. destruct (Nat.eqb_spec n a); [lia | reflexivity]. }
  induction l as [|r l IH]; intros n [|t] run H; cbn in H; try discriminate.
  - injection H as ->. cbn. rewrite filter_app, F0, F1 by lia. rewrite Nat.add_0_r, Nat.eqb_refl. apply List.app_nil_r.
  - cbn. rewrite filter_app, F0. destruct (Nat.eqb_spec n (n + S t)); [lia|]. replace (n + S t) with (S n + t) by lia. now apply IH.
Qed.

(** [finished]: the results of the workers in the order in which they come in, any permutation of the runs.  Every run gets a run id and its rows
    appear exactly once, under this id. *)
Theorem C42_every_run_recorded_once : forall R (veq : value -> value -> bool) py_str (parameters : kwargs) iterations initial_seed (rows : kwargs -> list R) finished,
  py_equality veq -> (forall n, In n reserved -> ~ In n (map fst parameters)) -> (forall p v, In p parameters -> In v (offered (snd p)) -> hashable v = true) ->
  Permutation (map (worker rows) (jobs py_str parameters iterations initial_seed)) finished ->
  exists out, collect_results veq finished = Ok out /\
    Permutation (map run_data out) (flat_map rows (jobs py_str parameters iterations initial_seed)) /\
    forall t run, nth_error finished t = Some run -> filter (fun r => Nat.eqb (run_id r) t) out = map (mkRow t 0%Z) (snd run).
Proof.
  intros R veq py_str parameters iterations initial_seed rows finished V F Hh P. set (js := jobs py_str parameters iterations initial_seed) in *.
  assert (HJ : forall run, In run finished -> exists pos job, nth_error js pos = Some job /\ run = worker rows job).
  { intros run J. apply (Permutation_in _ (Permutation_sym P)) in J. apply in_map_iff in J as (job & <- & J). apply In_nth_error in J as (pos & J). eauto. }
  assert (ND : NoDup finished). { apply (nth_perm _ _ P). intros i j x y J J' <-. rewrite nth_error_map in J, J'. destruct (nth_error js i) as [job|] eqn:E; [|discriminate]. destruct (nth_error js j) as [job'|] eqn:E'; [|discriminate]. cbn in J, J'. injection J as J. injection J' as J'.
    apply (jobs_differ py_str parameters iterations initial_seed veq F V i j job job' E E'). unfold worker in J, J'. assert (X : map snd job = map snd job') by congruence. rewrite X. now apply tuple_eq_refl. }
  destruct (collect_fold R veq V finished [] 0 []) as (c' & Hf).
  - intros run v J Jv. apply HJ in J as (pos & job & J & ->). destruct (job_fields py_str _ _ _ F _ _ J) as (_ & _ & _ & c & i & _ & Hc & _ & _ & Hv). cbn [worker fst] in Jv. destruct (Hv v Jv) as [Jw|(z & [Ez|(s & Ez)])]; [|now rewrite Ez|now rewrite Ez].
    apply in_map_iff in Jw as (kw & <- & Jw). destruct (base_values _ _ _ Hc Jw) as (p & Jp & _ & Jo). eapply Hh; eassumption.
  - intros run k _ [].
  - intros i j r r' J J' Ne. destruct (HJ r (nth_error_In _ _ J)) as (pos & job & E & ->). destruct (HJ r' (nth_error_In _ _ J')) as (pos' & job' & E' & ->).
    destruct (tuple_eq veq (fst (worker rows job)) (fst (worker rows job'))) eqn:X; [|reflexivity]. exfalso. apply (jobs_differ py_str parameters iterations initial_seed veq F V pos pos' job job' E E') in X. subst pos'.
    apply Ne. rewrite E in E'. injection E' as <-. apply (proj1 (NoDup_nth_error finished) ND); [apply nth_error_Some; congruence | congruence].
  - unfold collect_results. rewrite Hf. cbn [bind snd app]. eexists. split; [reflexivity|]. split.
    + rewrite combine_runs. rewrite <- (Permutation_flat_map snd P). unfold js. rewrite flat_map_map. unfold worker. cbn [snd]. apply Permutation_refl.
    + intros t run J. exact (combine_ids finished 0 t run J).
Qed.
(** two completion orders give the same rows, up to their order and the run ids *)
Theorem C42_completion_order_is_irrelevant : forall R (veq : value -> value -> bool) py_str (parameters : kwargs) iterations initial_seed (rows : kwargs -> list R) finished finished' out out',
  py_equality veq -> (forall n, In n reserved -> ~ In n (map fst parameters)) -> (forall p v, In p parameters -> In v (offered (snd p)) -> hashable v = true) ->
  Permutation (map (worker rows) (jobs py_str parameters iterations initial_seed)) finished -> Permutation finished finished' ->
  collect_results veq finished = Ok out -> collect_results veq finished' = Ok out' ->
  Permutation (map run_data out) (map run_data out').
Proof.
  intros R veq py_str parameters iterations initial_seed rows finished finished' out out' V F Hh P P' H H'.
  destruct (C42_every_run_recorded_once R veq py_str parameters iterations initial_seed rows finished V F Hh P) as (o & O1 & O2 & _). destruct (C42_every_run_recorded_once R veq py_str parameters iterations initial_seed rows finished' V F Hh (Permutation_trans P P')) as (o' & O1' & O2' & _).
  assert (o = out) by congruence. assert (o' = out') by congruence. subst. rewrite O2, O2'. reflexivity.
Qed.
(** A parameter whose values are lists (e.g. several distributions of profiles) makes the batch fail after the runs were made: TypeError, no results. *)
Theorem C42_lists_as_values_refuted : exists (parameters : kwargs) (iterations : nat) (seed : Z), NoDup (map fst parameters) /\ (forall n, In n reserved -> ~ In n (map fst parameters)) /\
  forall R veq py_str (rows : kwargs -> list R), collect_results veq (map (worker rows) (jobs py_str parameters iterations seed)) = Err TypeError.
Proof.
  exists [("agent_profile_distr", VList [VList [VInt 1; VInt 0; VInt 0]; VList [VInt 0; VInt 1; VInt 0]])]%string%Z, 1, 0%Z. split; [repeat constructor; cbn; tauto|].
  split; [intros n [<-|[<-|[<-|[]]]]; cbn; intuition discriminate|]. intros. reflexivity.
Qed.
(** The column "iteration" does not number the repetitions of a parameter combination, it is 0 in every row. *)
Theorem C52_iteration_column_refuted : forall R (veq : value -> value -> bool) py_str (parameters : kwargs) iterations initial_seed (rows : kwargs -> list R) finished out,
  py_equality veq -> (forall n, In n reserved -> ~ In n (map fst parameters)) -> (forall p v, In p parameters -> In v (offered (snd p)) -> hashable v = true) ->
  Permutation (map (worker rows) (jobs py_str parameters iterations initial_seed)) finished -> collect_results veq finished = Ok out ->
  forall r, In r out -> iteration r = 0%Z.
Proof.
  intros R veq py_str parameters iterations initial_seed rows finished out V F Hh P H r J.
  destruct (C42_every_run_recorded_once R veq py_str parameters iterations initial_seed rows finished V F Hh P) as (o & O1 & O2 & O3). assert (o = out) by congruence. subst o.
  assert (L : run_id r < List.length finished).
  { unfold collect_results in H. apply bind_ok in H as ([[c n] o] & Hf & H). injection H as <-. cbn [snd] in J. clear - Hf J.
    assert (G : forall todo c0 n0 r0 c n o, foldM (record_run veq) todo (c0, n0, r0) = Ok (c, n, o) -> n = n0 + List.length todo /\ forall r : row R, In r o -> In r r0 \/ n0 <= run_id r < n0 + List.length todo).
    { clear. induction todo as [|run todo IH]; intros c0 n0 r0 c n o H; cbn in H; [injection H as <- <- <-; split; [cbn; lia | now left]|]. apply bind_ok in H as ([[c1 n1] r1] & H1 & H). unfold record_run in H1. destruct (forallb hashable (fst run)); [|discriminate]. injection H1 as <- <- <-.
      apply IH in H as [-> H]. cbn [List.length]. split; [lia|]. intros r J. apply H in J as [J|J]; [|right; lia]. apply in_app_or in J as [J|J]; [now left|]. right. apply in_map_iff in J as (d & <- & _). cbn. lia. }
    apply G in Hf as [_ Hf]. apply Hf in J as [[]|J]. lia. }
  destruct (nth_error finished (run_id r)) as [run|] eqn:E; [|apply nth_error_None in E; lia]. specialize (O3 _ _ E). assert (K : In r (filter (fun r0 => Nat.eqb (run_id r0) (run_id r)) out)) by (apply filter_In; split; [assumption | apply Nat.eqb_refl]).
  rewrite O3 in K. apply in_map_iff in K as (d & <- & _). reflexivity.
Qed.
(** three runs that differ in the seed only, finishing in the order 2, 3, 1 *)
Example C42_C52_instance : let ps := [("k", VInt 100)]%string%Z in let js := jobs (fun _ => "x"%string) ps 3 0 in let veq := fun v v' => match v, v' with VInt a, VInt b => Z.eqb a b | VStr a, VStr b | VAtom a, VAtom b => String.eqb a b | VList [], VList [] => true | VList _, VList _ => true | _, _ => false end in
  exists j1 j2 j3, js = [j1; j2; j3] /\ Permutation (map (worker (fun kw => [sget kw "seed"; sget kw "seed"])) js) (map (worker (fun kw => [sget kw "seed"; sget kw "seed"])) [j2; j3; j1]) /\
  collect_results veq (map (worker (fun kw => [sget kw "seed"; sget kw "seed"])) [j2; j3; j1]) =
    Ok [mkRow 0 0 (Some (VInt 1)); mkRow 0 0 (Some (VInt 1)); mkRow 1 0 (Some (VInt 2)); mkRow 1 0 (Some (VInt 2)); mkRow 2 0 (Some (VInt 0)); mkRow 2 0 (Some (VInt 0))]%Z.
Proof.
  cbv zeta. eexists _, _, _. split; [reflexivity|]. split; [exact (Permutation_map _ (Permutation_app_comm [_] [_; _])) | reflexivity].
Qed.
