(** The metrics a user can ask for are metrics the figures of a batch can show (C83). *)
From Coq Require Import ZArith List Bool String Lia Permutation.
From Verif Require Import Num Py Batch Script BatchFigures Viz ListFacts PropBatchFigures.
Import ListNotations.
Open Scope nat_scope.

Definition distinct (l : list string) : bool := (fix go l := match l with [] => true | x :: r => negb (existsb (String.eqb x) r) && go r end) l.
Lemma distinct_nodup l : distinct l = true -> NoDup l.
Proof.
  induction l as [|x l IH]; cbn; [constructor|]. intros H. apply andb_prop in H as [H1 H2]. constructor; [|now apply IH]. intros J. apply negb_true_iff in H1. assert (K : existsb (String.eqb x) l = true) by (apply existsb_exists; exists x; split; [exact J | apply String.eqb_refl]). congruence.
Qed.
Definition within (l m : list string) : bool := forallb (fun x => existsb (String.eqb x) m) l.
Lemma within_incl l m : within l m = true -> incl l m.
Proof. intros H x J. unfold within in H. rewrite forallb_forall in H. apply H, existsb_exists in J as (y & J & E). apply String.eqb_eq in E. now subst y. Qed.

(** every metric but two has a number, and every number a metric *)
Theorem C83_metrics_with_a_number : Permutation all_reporters ("Gini-id (k)"%string :: "Gini-id stake (k)"%string :: reporter_names).
Proof. apply NoDup_Permutation_bis; [apply distinct_nodup; vm_compute; reflexivity | apply Nat.eq_le_incl; reflexivity | apply within_incl; vm_compute; reflexivity]. Qed.
Lemma names_nodup : NoDup reporter_names.  Proof. apply distinct_nodup. vm_compute. reflexivity. Qed.

(** Different numbers from 1 to 30, in any order, stand for metrics that meet what C83 asks of the metrics of a batch. *)
Theorem C83_chosen_metrics_are_shown : forall (numbers : list Z) (measure : kwargs -> kwargs), NoDup numbers -> (forall i, In i numbers -> (1 <= i <= 30)%Z) ->
  exists metrics, map reporter_name numbers = map Some metrics /\ NoDup metrics /\ incl metrics all_reporters /\ ((forall job, map fst (measure job) = metrics) -> measured metrics measure).
Proof.
  intros numbers measure N R. assert (E : forall i, In i numbers -> exists x, nth_error reporter_names (Z.to_nat (i - 1)) = Some x /\ reporter_name i = Some x).
  { intros i J. specialize (R i J). destruct (nth_error reporter_names (Z.to_nat (i - 1))) as [x|] eqn:E.
    - exists x. split; [reflexivity|]. unfold reporter_name. destruct (Z.leb_spec 1 i); [exact E | lia].
    - exfalso. apply nth_error_None in E. change (List.length reporter_names) with 30 in E. lia. }
  assert (H : exists metrics, map reporter_name numbers = map Some metrics /\ NoDup metrics /\ incl metrics reporter_names).
  { clear measure. induction numbers as [|i l IH]; [exists []; split; [reflexivity|]; split; [constructor | intros ? []]|]. inversion_clear N as [|? ? Ni Nl].
    destruct IH as (ms & M1 & M2 & M3); [exact Nl | intros; apply R; now right | intros; apply E; now right|]. destruct (E i (or_introl eq_refl)) as (x & X1 & X2). exists (x :: ms). split; [cbn; now rewrite X2, M1|]. split.
    - constructor; [|exact M2]. intros J. apply (in_map Some) in J. rewrite <- M1 in J. apply in_map_iff in J as (j & Hj & Jl). destruct (E j (or_intror Jl)) as (y & Y1 & Y2). assert (y = x) by congruence. subst y.
      assert (Q : Z.to_nat (i - 1) = Z.to_nat (j - 1)). { apply (proj1 (NoDup_nth_error _) names_nodup); [apply nth_error_Some; congruence | congruence]. }
      assert (Ri := R i (or_introl eq_refl)). assert (Rj := R j (or_intror Jl)). assert (i = j) by lia. now subst j.
    - intros y [<-|J]; [now apply nth_error_In in X1 | now apply M3]. }
  destruct H as (ms & M1 & M2 & M3). exists ms. assert (I : incl ms all_reporters). { intros x J. eapply Permutation_in; [apply Permutation_sym, C83_metrics_with_a_number|]. right. right. now apply M3. }
  split; [exact M1|]. split; [exact M2|]. split; [exact I|]. intros K. split; [exact M2|]. now split.
Qed.
(** the metrics 9, 1 and 24 *)
Lemma C83_metrics_instance : NoDup [9; 1; 24]%Z /\ (forall i, In i [9; 1; 24]%Z -> (1 <= i <= 30)%Z) /\ map reporter_name [9; 1; 24]%Z = map Some ["Nakamoto coefficient"; "Pool count"; "Mean margin"]%string.
Proof. split; [repeat constructor; cbn; intuition lia|]. split; [cbn; intuition lia | vm_compute; reflexivity]. Qed.
