(** Every execution has an output folder of its own (C67). *)
From Coq Require Import ZArith List Bool String Lia DecimalString DecimalZ.
From Verif Require Import Num Py Batch ListFacts PropBatch PropFiles Folder.
Import ListNotations.
Open Scope nat_scope.

Lemma str_no_dash z : (0 <= z)%Z -> has_dash (str_int z) = false.
Proof. intros H. rewrite <- (Z2Nat.id z H). apply str_nat_no_dash. Qed.
(** The name of a folder determines the sequence number and the identifier of the execution. *)
Theorem C67_name_is_unambiguous : forall n n' id id', (0 <= n)%Z -> (0 <= n')%Z -> folder_name n id = folder_name n' id' -> n = n' /\ id = id'.
Proof.
  intros n n' id id' H H' E. assert (n = n'). { unfold folder_name in E. apply cut_dash in E; [|now apply str_no_dash..]. now apply str_int_inj. }
  subst n'. split; [reflexivity|]. unfold folder_name in E. revert E. generalize (str_int n). intros s. induction s as [|c s IH]; cbn; intros E; injection E; auto.
Qed.

(** Whatever the executions in a directory do at the same time, wherever they crash and whatever the sequence file contains: a folder that an execution has made did not exist before, and no other
    execution has made it. *)
Theorem C67_folders_are_exclusive : forall id seq folders l, let d := disk_run id (mkDisk seq folders [] []) l in
  (forall i f, get (d_made d) i = Some f -> ~ In f folders /\ In f (d_folders d)) /\ (forall i j f, get (d_made d) i = Some f -> get (d_made d) j = Some f -> i = j) /\ incl folders (d_folders d).
Proof.
  intros id seq folders l. cbv zeta. unfold disk_run.
  set (good := fun d => (forall i f, get (d_made d) i = Some f -> ~ In f folders /\ In f (d_folders d)) /\ (forall i j f, get (d_made d) i = Some f -> get (d_made d) j = Some f -> i = j) /\ incl folders (d_folders d)).
  enough (Q : forall d, good d -> good (fold_left (disk_step id) l d)) by (apply Q; split; [discriminate|]; split; [discriminate | apply incl_refl]).
  induction l as [|e l IH]; intros d G; [exact G|]. cbn [fold_left]. apply IH. clear IH. destruct G as (G1 & G2 & G3). unfold disk_step. destruct (get (d_raised d) (actor e)); [exact (conj G1 (conj G2 G3))|].
  destruct e as [ev|i]; [destruct (seq_step _ ev); exact (conj G1 (conj G2 G3))|]. destruct (get (snd (d_seq d)) i) as [n|]; [|exact (conj G1 (conj G2 G3))]. cbv zeta. set (f := folder_name n (id i)). clearbody f. clear n.
  destruct (existsb (String.eqb f) (d_folders d)) eqn:B; [exact (conj G1 (conj G2 G3))|].
  assert (Nf : ~ In f (d_folders d)) by (intros J; assert (existsb (String.eqb f) (d_folders d) = true) by (apply existsb_exists; exists f; split; [assumption | apply String.eqb_refl]); congruence).
  unfold good. cbn [d_made d_folders]. split; [|split; [|now apply incl_tl]].
  - intros j g E. destruct (Nat.eq_dec j i) as [->|N]; [rewrite get_set_eq in E; injection E as <-; split; [intros J; apply Nf, G3, J | now left]|].
    rewrite get_set_ne in E by congruence. destruct (G1 _ _ E). split; [assumption | now right].
  - intros j k g E1 E2. destruct (Nat.eq_dec j i) as [->|N1], (Nat.eq_dec k i) as [->|N2]; [reflexivity|..].
    + rewrite get_set_eq in E1. rewrite get_set_ne in E2 by congruence. injection E1 as <-. destruct (G1 _ _ E2). contradiction.
    + rewrite get_set_eq in E2. rewrite get_set_ne in E1 by congruence. injection E2 as <-. destruct (G1 _ _ E1). contradiction.
    + rewrite get_set_ne in E1, E2 by congruence. eauto.
Qed.

(** ** Executions one after another *)
(** how far an execution gets: it crashes after reading the number; or after writing it and before making the folder; or it makes the folder *)
Inductive progress := Has_read | Has_written | Has_folder.
Definition accesses (i : nat) (p : progress) : list disk_event :=
  OnSeq (Reads i) :: match p with Has_read => [] | Has_written => [OnSeq (Truncates i); OnSeq (Writes i)] | Has_folder => [OnSeq (Truncates i); OnSeq (Writes i); Makes i] end.
Definition one_after_another (l : list (nat * progress)) : list disk_event := flat_map (fun x => accesses (fst x) (snd x)) l.
(** the executions that wrote their number *)
Definition counted (l : list (nat * progress)) : nat := List.length (filter (fun x => match snd x with Has_read => false | _ => true end) l).

(** If no folder has a number above that in the sequence file, no execution raises, and each one that gets so far makes the folder with the next number and its identifier. *)
Theorem C67_one_after_another : forall id n folders l, (0 <= n)%Z -> (forall m x, (0 <= m)%Z -> In (folder_name m x) folders -> (m <= n)%Z) -> NoDup (map fst l) ->
  let d := disk_run id (mkDisk (numbered n, []) folders [] []) (one_after_another l) in
  d_raised d = [] /\ forall pre i post, l = pre ++ (i, Has_folder) :: post -> get (d_made d) i = Some (folder_name (n + Z.of_nat (counted pre) + 1) (id i)).
Proof.
  intros id n folders l Hn Hf Nd. cbv zeta.
  enough (Q : forall l n ids folders made, (0 <= n)%Z -> (forall m x, (0 <= m)%Z -> In (folder_name m x) folders -> (m <= n)%Z) -> NoDup (map fst l) ->
    let d := disk_run id (mkDisk (numbered n, ids) folders made []) (one_after_another l) in
    d_raised d = [] /\ (forall pre i post, l = pre ++ (i, Has_folder) :: post -> get (d_made d) i = Some (folder_name (n + Z.of_nat (counted pre) + 1) (id i))) /\ (forall j, ~ In j (map fst l) -> get (d_made d) j = get made j))
  by (destruct (Q l n [] folders [] Hn Hf Nd) as (Q1 & Q2 & _); auto).
  clear. induction l as [|[i p] l IH]; intros n ids folders made Hn Hf Nd; cbv zeta.
  - split; [reflexivity|]. split; [intros [|] ? ? ?; discriminate | reflexivity].
  - cbn in Nd. apply NoDup_cons_iff in Nd as [Nd1 Nd2]. unfold disk_run, one_after_another. cbn [flat_map fst snd]. rewrite fold_left_app. fold (one_after_another l).
    assert (E1 : disk_step id (mkDisk (numbered n, ids) folders made []) (OnSeq (Reads i)) = mkDisk (numbered n, set ids i (n + 1)%Z) folders made []).
    { unfold disk_step. cbn [d_raised d_seq d_folders d_made actor get seq_step]. rewrite read_numbered by assumption. reflexivity. }
    assert (E2 : fold_left (disk_step id) [OnSeq (Truncates i); OnSeq (Writes i)] (mkDisk (numbered n, set ids i (n + 1)%Z) folders made []) = mkDisk (numbered (n + 1), set ids i (n + 1)%Z) folders made []).
    { cbn [fold_left]. unfold disk_step. cbn [d_raised d_seq d_folders d_made actor get seq_step]. rewrite get_set_eq. cbn [of_option bind]. rewrite overwrite_empty. unfold numbered. destruct (Z.eqb_spec (n + 1) 0); [lia | reflexivity]. }
    assert (Hf' : forall m x, (0 <= m)%Z -> In (folder_name m x) folders -> (m <= n + 1)%Z) by (intros m x M J; specialize (Hf m x M J); lia).
    destruct p; unfold accesses.
    + change (fold_left (disk_step id) [OnSeq (Reads i)] (mkDisk (numbered n, ids) folders made [])) with (disk_step id (mkDisk (numbered n, ids) folders made []) (OnSeq (Reads i))). rewrite E1. destruct (IH n (set ids i (n + 1)%Z) folders made Hn Hf Nd2) as (I1 & I2 & I3). split; [exact I1|]. split.
      * intros [|x pre] j post E; cbn in E; injection E; intros; subst; [discriminate|]. unfold counted. cbn [filter snd]. eapply I2. reflexivity.
      * intros j J. cbn in J. apply I3. tauto.
    + change (fold_left (disk_step id) [OnSeq (Reads i); OnSeq (Truncates i); OnSeq (Writes i)] (mkDisk (numbered n, ids) folders made [])) with
        (fold_left (disk_step id) [OnSeq (Truncates i); OnSeq (Writes i)] (disk_step id (mkDisk (numbered n, ids) folders made []) (OnSeq (Reads i)))). rewrite E1, E2.
      destruct (IH (n + 1)%Z (set ids i (n + 1)%Z) folders made ltac:(lia) Hf' Nd2) as (I1 & I2 & I3). split; [exact I1|]. split.
      * intros [|x pre] j post E; cbn in E; injection E; intros; subst; [discriminate|]. unfold counted. cbn [filter snd List.length]. unfold disk_run in I2. rewrite (I2 _ _ _ eq_refl). unfold counted. do 2 f_equal. lia.
      * intros j J. cbn in J. apply I3. tauto.
    + change (fold_left (disk_step id) [OnSeq (Reads i); OnSeq (Truncates i); OnSeq (Writes i); Makes i] (mkDisk (numbered n, ids) folders made [])) with
        (disk_step id (fold_left (disk_step id) [OnSeq (Truncates i); OnSeq (Writes i)] (disk_step id (mkDisk (numbered n, ids) folders made []) (OnSeq (Reads i)))) (Makes i)). rewrite E1, E2.
      assert (E3 : disk_step id (mkDisk (numbered (n + 1), set ids i (n + 1)%Z) folders made []) (Makes i) = mkDisk (numbered (n + 1), set ids i (n + 1)%Z) (folder_name (n + 1) (id i) :: folders) (set made i (folder_name (n + 1) (id i))) []).
      { unfold disk_step. cbn [d_raised d_seq d_folders d_made actor get snd]. rewrite get_set_eq. cbv zeta. destruct (existsb _ folders) eqn:B; [|reflexivity]. exfalso. apply existsb_exists in B as (f & J & E). apply String.eqb_eq in E. subst f. specialize (Hf (n + 1)%Z _ ltac:(lia) J). lia. }
      rewrite E3. destruct (IH (n + 1)%Z (set ids i (n + 1)%Z) (folder_name (n + 1) (id i) :: folders) (set made i (folder_name (n + 1) (id i))) ltac:(lia)) as (I1 & I2 & I3); [|assumption|].
      { intros m x M [E|J]; [|now apply (Hf' m x)]. apply C67_name_is_unambiguous in E as [E _]; lia. }
      split; [exact I1|]. split.
      * intros [|x pre] j post E; cbn in E; injection E; intros; subst.
        -- unfold disk_run in I3. rewrite I3 by assumption. rewrite get_set_eq. unfold counted. cbn [filter List.length]. do 2 f_equal. lia.
        -- unfold counted. cbn [filter snd List.length]. unfold disk_run in I2. rewrite (I2 _ _ _ eq_refl). unfold counted. do 2 f_equal. lia.
      * intros j J. cbn in J. unfold disk_run in I3. rewrite I3 by tauto. apply get_set_ne. intros ->. tauto.
Qed.

Lemma step_reads id n ids folders made i : (0 <= n)%Z -> disk_step id (mkDisk (numbered n, ids) folders made []) (OnSeq (Reads i)) = mkDisk (numbered n, set ids i (n + 1)%Z) folders made [].
Proof. intros H. unfold disk_step. cbn [d_raised d_seq d_folders d_made actor get seq_step]. rewrite read_numbered by assumption. reflexivity. Qed.
Lemma step_truncates id file ids folders made i : disk_step id (mkDisk (file, ids) folders made []) (OnSeq (Truncates i)) = mkDisk (Some EmptyString, ids) folders made [].
Proof. reflexivity. Qed.
Lemma step_writes id ids folders made i n : get ids i = Some n -> disk_step id (mkDisk (Some EmptyString, ids) folders made []) (OnSeq (Writes i)) = mkDisk (Some (str_int n), ids) folders made [].
Proof. intros H. unfold disk_step. cbn [d_raised d_seq d_folders d_made actor get seq_step]. rewrite H. cbn [of_option bind]. now rewrite overwrite_empty. Qed.
(** REFUTED for executions that start at the same time: with the same identifier one of them raises. *)
Theorem C67_race_refuted : forall n folders x, (0 <= n)%Z -> (forall m y, (0 <= m)%Z -> In (folder_name m y) folders -> (m <= n)%Z) ->
  let d := disk_run (fun _ => x) (mkDisk (numbered n, []) folders [] []) [OnSeq (Reads 0); OnSeq (Reads 1); OnSeq (Truncates 0); OnSeq (Writes 0); OnSeq (Truncates 1); OnSeq (Writes 1); Makes 0; Makes 1] in
  get (d_made d) 0 = Some (folder_name (n + 1) x) /\ get (d_raised d) 1 = Some FileExistsError.
Proof.
  intros n folders x Hn Hf. cbv zeta. unfold disk_run. cbn [fold_left]. rewrite (step_reads _ n) by assumption. rewrite (step_reads _ n) by assumption. rewrite step_truncates. rewrite (step_writes _ _ _ _ 0 (n + 1)) by reflexivity.
  rewrite step_truncates. rewrite (step_writes _ _ _ _ 1 (n + 1)) by reflexivity.
  assert (B : existsb (String.eqb (folder_name (n + 1) x)) folders = false). { apply not_true_is_false. intros B. apply existsb_exists in B as (f & J & E). apply String.eqb_eq in E. subst f. specialize (Hf (n + 1)%Z _ ltac:(lia) J). lia. }
  unfold disk_step at 2 4. cbn [actor d_raised d_seq d_folders d_made get snd set Nat.eqb]. cbv zeta. rewrite B. unfold disk_step. cbn [actor d_raised d_seq d_folders d_made get snd set Nat.eqb existsb]. cbv zeta. rewrite String.eqb_refl. split; reflexivity.
Qed.
Example C67_instance : let d := disk_run (fun _ => "test"%string) (mkDisk (numbered 2, []) ["1-test"; "2-batch-run"]%string [] []) (one_after_another [(0, Has_folder); (1, Has_read); (2, Has_written); (3, Has_folder)]) in
  d_made d = [(0, "3-test"); (3, "5-test")]%string /\ d_raised d = [].
Proof. split; vm_compute; reflexivity. Qed.
