(** C26: every agent acts once per round, under every activation order (logic/activations.py, mesa.time). *)
From Coq Require Import ZArith List Bool Arith Lia Permutation.
From Verif Require Import Num Py Rewards SortedKeyList World Stakeholder Sched ListFacts.
Import ListNotations.
Open Scope nat_scope.

(** What Python's random module guarantees: shuffle yields a permutation, sample(l, n) yields n distinct positions of l. *)
Definition fair (ch : choices) : Prop :=
  (forall l, Permutation (c_shuffle ch l) l) /\
  (forall i l n, NoDup l -> n <= length l -> length (c_sample ch i l n) = n /\ NoDup (c_sample ch i l n) /\ incl (c_sample ch i l n) l).

(** [batches] is a partition of the agents [ks] into non-empty groups of at most [z] *)
Definition partition (z : nat) (ks : list nat) (batches : list (list nat)) : Prop :=
  Permutation (concat batches) ks /\ Forall (fun b => 1 <= length b <= z) batches.

Lemma NoDup_app_intro {X} (l l' : list X) : NoDup l -> NoDup l' -> (forall x, In x l -> ~ In x l') -> NoDup (l ++ l').
Proof.
  induction l as [|x l IH]; cbn; intros N N' D; [assumption|]. inversion N; subst. constructor; [|apply IH; auto]. rewrite in_app_iff. intros [J|J]; [contradiction | now apply (D x); auto].
Qed.
Lemma rest_perm (ks batch : list nat) : NoDup ks -> NoDup batch -> incl batch ks -> Permutation (batch ++ filter (fun key => negb (inb key batch)) ks) ks.
Proof.
  intros N1 N2 I. apply NoDup_Permutation; [|assumption|].
  - apply NoDup_app_intro; [assumption | now apply NoDup_filter|]. intros x J1 J2. apply filter_In in J2 as [_ J2]. apply negb_true_iff in J2. apply inb_false in J2. contradiction.
  - intros x. rewrite in_app_iff, filter_In, negb_true_iff. split; [intros [J|[J _]]; auto|]. intros J. destruct (inb x batch) eqn:E; [left; now apply inb_spec | right; auto].
Qed.

Lemma semi_partition ch z : fair ch -> 1 <= z -> forall fuel i ks, NoDup ks -> length ks <= fuel ->
  exists batches, semi_loop ch z true fuel i ks = Ok (flat_map batch_events batches) /\ partition z ks batches.
Proof.
  intros [_ F] Hz. induction fuel as [|fuel IH]; intros i [|a ks] N L.
  - exists []. repeat split; constructor.
  - cbn in L. lia.
  - exists []. repeat split; constructor.
  - set (l := a :: ks) in *. cbn [semi_loop]. set (n := if z <? length l then z else length l).
    assert (Hn : 1 <= n <= z /\ n <= length l). { unfold n. destruct (Nat.ltb_spec z (length l)); [lia|]. unfold l. cbn [length]. unfold l in H. cbn [length] in H. lia. }
    destruct (F i l n N) as (F1 & F2 & F3); [lia|]. set (b := c_sample ch i l n) in *.
    assert (P := rest_perm l b N F2 F3).
    destruct (IH (S i) (filter (fun key => negb (inb key b)) l)) as (bs & E & P1 & P2).
    + now apply NoDup_filter.
    + apply Permutation_length in P. rewrite app_length, F1 in P. lia.
    + exists (b :: bs). split.
      * unfold l at 1. cbn [bind]. fold l. rewrite E. reflexivity.
      * split; [cbn [concat]; rewrite P1; exact P | constructor; [lia | assumption]].
Qed.

(** One round, semisimultaneous activation with z agents at a time: the agents are split into batches of at most z; each batch is stepped and then
    advanced; the round ends. *)
Theorem C26_semisimultaneous : forall ch z ks, fair ch -> 1 <= z -> NoDup ks ->
  exists batches, semi_loop ch z true (length ks) 0 ks = Ok (flat_map (fun b => map EStep b ++ map EAdv b) batches) /\ partition z ks batches.
Proof. intros ch z ks F Hz N. exact (semi_partition ch z F Hz (length ks) 0 ks N (le_n _)). Qed.

(** One round of each of the four schedulers. *)
Theorem C26_round : forall o ch ks, fair ch -> NoDup ks -> exists evs, round_events o ch ks = Ok evs /\
  match o with
  | Sequential => evs = map EStep ks
  | Random => exists l, Permutation l ks /\ evs = map EStep l
  | Simultaneous => evs = map EStep ks ++ map EAdv ks
  | Semisimultaneous => exists batches, partition 5 ks batches /\ evs = flat_map (fun b => map EStep b ++ map EAdv b) batches
  end.
Proof.
  intros o ch ks F N. destruct o; cbn [round_events].
  - eexists. split; [reflexivity|]. exists (c_shuffle ch ks). split; [apply F | reflexivity].
  - eexists. split; reflexivity.
  - eexists. split; reflexivity.
  - destruct (C26_semisimultaneous ch 5 ks F) as (bs & E & P); [lia | assumption|]. eexists. split; [exact E|]. eauto.
Qed.

Definition event_dec (x y : event) : {x = y} + {x <> y}.  Proof. decide equality; apply Nat.eq_dec. Defined.
(** how often agent [a] is stepped and advanced by the scheduler *)
Definition stepped (a : nat) (evs : list event) : nat := count_occ event_dec evs (EStep a).
Definition advanced (a : nat) (evs : list event) : nat := count_occ event_dec evs (EAdv a).

Lemma count_map_same (f : nat -> event) a l : (forall x y, f x = f y -> x = y) -> count_occ event_dec (map f l) (f a) = count_occ Nat.eq_dec l a.
Proof. intros I. induction l as [|x l IH]; cbn; [reflexivity|]. destruct (event_dec (f x) (f a)) as [E|E], (Nat.eq_dec x a) as [E'|E']; rewrite ?IH; try reflexivity; [now apply I in E | now subst]. Qed.
Lemma count_map_other (f : nat -> event) e l : (forall x, f x <> e) -> count_occ event_dec (map f l) e = 0.
Proof. intros I. induction l as [|x l IH]; cbn; [reflexivity|]. destruct (event_dec (f x) e); [now apply I in e0 | assumption]. Qed.
Lemma count_batches bs a : stepped a (flat_map batch_events bs) = count_occ Nat.eq_dec (concat bs) a /\ advanced a (flat_map batch_events bs) = count_occ Nat.eq_dec (concat bs) a.
Proof.
  unfold stepped, advanced. induction bs as [|b bs [IH1 IH2]]; [split; reflexivity|]. cbn [flat_map concat]. unfold batch_events at 1 3. rewrite !count_occ_app, IH1, IH2.
  rewrite (count_map_same EStep), (count_map_same EAdv) by (intros ? ? [= ->]; reflexivity). rewrite (count_map_other EStep), (count_map_other EAdv) by discriminate. split; lia.
Qed.
Lemma count_perm (l ks : list nat) a : Permutation l ks -> NoDup ks -> In a ks -> count_occ Nat.eq_dec l a = 1.
Proof. intros P N J. rewrite (proj1 (Permutation_count_occ Nat.eq_dec l ks) P a). now apply NoDup_count_occ'. Qed.

(** Each agent is stepped exactly once per round, and advanced exactly once under the two schedulers for simultaneous moves (under the others step()
    itself advances the agent: C26_step_advances). *)
Theorem C26_exactly_once : forall o ch ks evs, fair ch -> NoDup ks -> round_events o ch ks = Ok evs ->
  (forall a, In a ks -> stepped a evs = 1 /\ advanced a evs = (if is_simul o then 1 else 0)) /\ (forall a, ~ In a ks -> stepped a evs = 0 /\ advanced a evs = 0).
Proof.
  intros o ch ks evs F N E. destruct (C26_round o ch ks F N) as (evs' & E' & H). rewrite E in E'. injection E' as <-.
  assert (Z : forall l a, Permutation l ks -> ~ In a ks -> count_occ Nat.eq_dec l a = 0).
  { intros l a P J. apply count_occ_not_In. intros J'. apply J. eapply Permutation_in; eassumption. }
  assert (One : forall l, Permutation l ks -> evs = map EStep l -> (forall a, In a ks -> stepped a evs = 1 /\ advanced a evs = 0) /\ (forall a, ~ In a ks -> stepped a evs = 0 /\ advanced a evs = 0)).
  { intros l P ->. unfold stepped, advanced. split; intros a J; rewrite (count_map_same EStep) by (intros ? ? [= ->]; reflexivity); rewrite (count_map_other EStep) by discriminate;
      (split; [|reflexivity]); [now apply (count_perm l ks) | now apply Z]. }
  assert (Two : forall bs, Permutation (concat bs) ks -> evs = flat_map batch_events bs -> (forall a, In a ks -> stepped a evs = 1 /\ advanced a evs = 1) /\ (forall a, ~ In a ks -> stepped a evs = 0 /\ advanced a evs = 0)).
  { intros bs P ->. split; intros a J; destruct (count_batches bs a) as [-> ->]; split; try (now apply (count_perm _ ks)); now apply Z. }
  destruct o; cbn [is_simul].
  - destruct H as (l & P & H). now apply (One l).
  - now apply (One ks).
  - apply (Two [ks]); [cbn; now rewrite app_nil_r|]. cbn. rewrite app_nil_r. exact H.
  - destruct H as (bs & (P & _) & H). now apply (Two bs).
Qed.

(** what step() of an agent does in a round: it advances the agent itself unless the activation is simultaneous *)
Theorem C26_step_advances : forall (A : Arith) so (w w1 : world A) a, update_strategy so w a = Ok w1 ->
  do_event so w (EStep a) = if w_simul w1 then Ok w1 else do_event so w1 (EAdv a).
Proof. intros A so w w1 a H. cbn. unfold agent_step. rewrite H. reflexivity. Qed.

(** one round consists of the events of the round, in order *)
Theorem C26_step_runs_the_round : forall (A : Arith) so o ch (w w' : world A), schedule_step so o ch w = Ok w' <->
  exists evs, round_events o ch (keys (w_agents w)) = Ok evs /\ foldM (do_event so) evs w = Ok w'.
Proof.
  intros A so o ch w w'. unfold schedule_step. destruct (round_events o ch (keys (w_agents w))) as [evs|e]; cbn [bind].
  - split; [intros H; now exists evs | intros (evs' & [= <-] & H); exact H].
  - split; [discriminate | intros (evs' & H & _); discriminate].
Qed.

(** The bound on z is needed: with z = 0 the round never ends. *)
Theorem C26_z_zero_never_ends : forall ch ks fuel i, fair ch -> NoDup ks -> ks <> [] -> semi_loop ch 0 true fuel i ks = Err OutOfFuel.
Proof.
  intros ch ks fuel i F N Ne. revert i. induction fuel as [|fuel IH]; intros i; destruct ks as [|a ks]; try congruence; cbn [semi_loop]; [reflexivity|].
  cbn [length Nat.ltb Nat.leb]. destruct F as [_ F]. destruct (F i (a :: ks) 0 N) as (F1 & _); [cbn; lia|]. destruct (c_sample ch i (a :: ks) 0); [|discriminate].
  assert (E : filter (fun key => negb (inb key [])) (a :: ks) = a :: ks) by (clear; induction (a :: ks) as [|x l IH]; cbn in *; [reflexivity | now rewrite IH]).
  rewrite E, IH. reflexivity.
Qed.

(** an instance: choices that are fair, seven agents, three at a time *)
Example C26_instance : fair (mkChoices (@rev nat) (fun _ l n => firstn n l)) /\
  semi_loop (mkChoices (@rev nat) (fun _ l n => firstn n l)) 3 true 7 0 [0;1;2;3;4;5;6] =
    Ok [EStep 0; EStep 1; EStep 2; EAdv 0; EAdv 1; EAdv 2; EStep 3; EStep 4; EStep 5; EAdv 3; EAdv 4; EAdv 5; EStep 6; EAdv 6].
Proof.
  split; [|reflexivity]. split; cbn [c_shuffle c_sample]; [intros; apply Permutation_sym, Permutation_rev|]. intros _ l n N L. split; [now apply firstn_length_le|].
  rewrite <- (firstn_skipn n l) in N. split; [clear L; revert N; generalize (firstn n l), (skipn n l); induction l0 as [|x l0 IH]; cbn; intros l1 N; constructor; inversion N; subst; [rewrite in_app_iff in *; tauto | eauto]|]. intros x J. rewrite <- (firstn_skipn n l). apply in_app_iff. auto.
Qed.
