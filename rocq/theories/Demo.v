(** A concrete run, used to show that the hypotheses of the theorems about runs are met: four agents, k = 2, sequential activation.  The states are never
    written down; facts about them are obtained by evaluating boolean tests. *)
From Coq Require Import ZArith QArith Qcanon List Bool Arith Lia Permutation.
From Verif Require Import Num Py QcTac Rewards SortedKeyList World Stakeholder Sched Sim Init Reach Spec PropInit.
Import ListNotations.
Open Scope Qc_scope.

(** sets are enumerated in the order in which they were built; nothing is shuffled; samples are prefixes *)
Definition so_id (_ l : list nat) : list nat := l.
Definition no_choice : choices := mkChoices (fun l => l) (fun _ l n => firstn n l).
Lemma so_id_set_order : set_order so_id.  Proof. intros c l. apply Permutation_refl. Qed.

Definition demo_args (o : order) (k : pv Qc) : args QcA :=
  mkArgs (A := QcA) (Single 4%Z) k (Single (Q2Qc (3#10))) (Single 0) (Single (Q2Qc (1#1000000))) (Single 100%Z) (Single (Q2Qc 2)) (Single o) (Single true) 0 0 false 2.
Definition demo_profiles := [NonMyopic; Myopic; NonMyopic; Myopic].
Definition demo_stakes : list Qc := [Q2Qc (7#10); Q2Qc (1#10); Q2Qc (1#10); Q2Qc (1#10)].
Definition demo_costs : list Qc := [Q2Qc (3#10); Q2Qc (1#1000); Q2Qc (1#2); Q2Qc (1#2)].
Definition demo_seq : args QcA := demo_args Sequential (Single (Q2Qc 2)).
Notation demo_init := (init demo_seq demo_profiles demo_stakes demo_costs).
Lemma demo_one : one_at_a_time demo_seq.  Proof. constructor; [right; reflexivity | constructor]. Qed.
Lemma demo_stakes_pos x : In x demo_stakes -> 0 < x.
Proof. cbn. intros [<-|[<-|[<-|[<-|[]]]]]; reflexivity. Qed.

Section Steps.
  Context {A : Arith}.
  (** [n] calls of step() *)
  Fixpoint steps (n : nat) (s : sim A) : res (sim A) :=
    match n with O => Ok s | S n => let! s' := sim_step so_id no_choice s in steps n s' end.
  Lemma steps_reach n : forall s s' : sim A, steps n s = Ok s' -> reach so_id s s'.
  Proof.
    induction n as [|n IH]; intros s s' H; cbn in H; [injection H as <-; constructor|].
    destruct (sim_step so_id no_choice s) as [s1|e] eqn:E; [|discriminate]. cbn in H. apply IH in H. clear IH.
    induction H; [econstructor; [constructor | exact E] | econstructor; eassumption].
  Qed.
  Lemma steps_check (i : res (sim A)) n (c : sim A -> bool) : match (let! s0 := i in steps n s0) with Ok s => c s | Err _ => false end = true ->
    exists s0 s, i = Ok s0 /\ steps n s0 = Ok s /\ c s = true.
  Proof.
    destruct i as [s0|e]; cbn [bind]; [|discriminate]. destruct (steps n s0) as [s|e] eqn:E; [|discriminate]. intros H. exists s0, s. auto.
  Qed.
  (** tests *)
  Definition pool_is (w : world A) (id : nat) (c : pool A -> bool) : bool :=
    match get (w_pools w) id with Some r => match get (w_heap w) r with Some p => c p | None => false end | None => false end.
  Lemma pool_is_active w id c : pool_is w id c = true -> exists p, active w id p /\ c p = true.
  Proof.
    unfold pool_is. destruct (get (w_pools w) id) as [r|] eqn:E; [|discriminate]. destruct (get (w_heap w) r) as [p|] eqn:E'; [|discriminate].
    intros H. exists p. split; [now exists r | assumption].
  Qed.
  Definition agent_is (w : world A) (a : nat) (c : agent A -> strategy A -> bool) : bool :=
    match get (w_agents w) a with Some ag => match a_strategy ag with Some st => c ag st | None => false end | None => false end.
  Lemma agent_is_plays w a c : agent_is w a c = true -> exists ag st, plays w a ag st /\ c ag st = true.
  Proof.
    unfold agent_is. destruct (get (w_agents w) a) as [ag|] eqn:E; [|discriminate]. destruct (a_strategy ag) as [st|] eqn:E'; [|discriminate].
    intros H. exists ag, st. split; [now split | assumption].
  Qed.
End Steps.
Definition dict_eqb (d d' : dict Qc) : bool := Nat.eqb (length d) (length d') && forallb (fun x => Nat.eqb (fst (fst x)) (fst (snd x)) && Qc_eqb (snd (fst x)) (snd (snd x))) (combine d d').
Lemma dict_eqb_eq d d' : dict_eqb d d' = true -> d = d'.
Proof.
  unfold dict_eqb. intros H. apply andb_true_iff in H as [L H]. apply Nat.eqb_eq in L. revert d' L H. induction d as [|[k v] d IH]; intros [|[k' v'] d'] L H; try discriminate; [reflexivity|].
  cbn in H. apply andb_true_iff in H as [H1 H2]. apply andb_true_iff in H1 as [H0 H1]. apply Nat.eqb_eq in H0. apply Qc_eqb_eq in H1. subst. f_equal. apply IH; [now injection L | assumption].
Qed.
