(** Executing a strategy changes, of the pool objects that exist, only stakes and delegations. *)
From Coq Require Import ZArith List Bool Arith Lia.
From Verif Require Import Num Py Rewards SortedKeyList World Stakeholder ListFacts Inv.
Import ListNotations.
Open Scope nat_scope.

Section Static.
  Context {A : Arith}.
  Variable so : list nat -> list nat -> list nat.
  Implicit Types w : world A.
  Definition hstat (w w' : world A) : Prop := forall r p, get (w_heap w) r = Some p -> exists p', get (w_heap w') r = Some p' /\ same_static p p'.
  Lemma hstat_refl w : hstat w w.
  Proof. intros r p G. exists p. split; [assumption | apply same_static_refl]. Qed.
  Lemma hstat_eq w w' : w_heap w' = w_heap w -> hstat w w'.
  Proof. intros E r p G. exists p. rewrite E. split; [assumption | apply same_static_refl]. Qed.
  Lemma hstat_trans w w1 w2 : hstat w w1 -> hstat w1 w2 -> hstat w w2.
  Proof. intros H1 H2 r p G. destruct (H1 r p G) as (p1 & G1 & S1). destruct (H2 r p1 G1) as (p2 & G2 & S2). exists p2. split; [assumption | eapply same_static_trans; eassumption]. Qed.
  Lemma hstat_store w r p v a : get (w_heap w) r = Some p -> hstat w (store w r (update_delegation v a p)).
  Proof.
    intros G r' p' G'. cbn. rewrite get_set. destruct (Nat.eqb_spec r r'); [subst r' | exists p'; split; [assumption | apply same_static_refl]].
    rewrite G in G'. injection G' as <-. eexists. split; [reflexivity|]. reflexivity.
  Qed.
  Lemma hstat_foldM {B} (f : world A -> B -> res (world A)) l : (forall w b w', f w b = Ok w' -> hstat w w') -> forall w w', foldM f l w = Ok w' -> hstat w w'.
  Proof.
    intros Hf. induction l as [|b l IH]; intros w w' H; cbn in H; [injection H as <-; apply hstat_refl|].
    apply bind_ok in H as (w1 & H1 & H). eapply hstat_trans; [eapply Hf; exact H1 | now apply IH].
  Qed.
  Lemma rank_add_heap w r w' : rank_add w r = Ok w' -> w_heap w' = w_heap w.
  Proof. unfold rank_add. intros H. inv_all. subst. reflexivity. Qed.
  Lemma rankm_add_heap w r w' : rankm_add w r = Ok w' -> w_heap w' = w_heap w.
  Proof. unfold rankm_add. intros H. inv_all. subst. reflexivity. Qed.
  Lemma rank_remove_heap w r w' : rank_remove w r = Ok w' -> w_heap w' = w_heap w.
  Proof. unfold rank_remove. intros H. inv_all. subst. reflexivity. Qed.
  Lemma rankm_remove_heap w r w' : rankm_remove w r = Ok w' -> w_heap w' = w_heap w.
  Proof. unfold rankm_remove. intros H. inv_all. subst. reflexivity. Qed.

  Lemma touch_hstat uid w id v w' : touch_delegation uid w id v = Ok w' -> hstat w w'.
  Proof.
    unfold touch_delegation. intros H. apply bind_ok in H as (r & _ & H). apply bind_ok in H as (w1 & H1 & H). apply bind_ok in H as (p & Hp & H). apply of_option_ok in Hp.
    eapply hstat_trans; [apply hstat_eq; eapply rankm_remove_heap; exact H1|]. eapply hstat_trans; [apply (hstat_store w1 r p v uid); assumption | apply hstat_eq; eapply rankm_add_heap; exact H].
  Qed.
  Lemma remove_one_hstat r id w a w' : remove_one_delegation r id w a = Ok w' -> hstat w w'.
  Proof.
    unfold remove_one_delegation. intros H. apply bind_ok in H as (ag & _ & H). apply bind_ok in H as (st & _ & H). apply bind_ok in H as (x & _ & H). apply bind_ok in H as (p & Hp & H).
    apply of_option_ok in Hp. injection H as <-. eapply hstat_trans; [|eapply hstat_store; exact Hp]. now apply hstat_eq.
  Qed.
  Lemma remove_all_hstat w r w' : remove_delegations w r = Ok w' -> hstat w w'.
  Proof.
    unfold remove_delegations. intros H. apply bind_ok in H as (p & _ & H). apply bind_ok in H as (w1 & H1 & H). injection H as <-.
    eapply hstat_trans; [eapply hstat_foldM; [|exact H1]; intros ? ? ? E; eapply remove_one_hstat; exact E|]. apply hstat_eq. now destruct (w_simul w1).
  Qed.
  Lemma close_hstat w id w' : close_pool w id = Ok w' -> hstat w w'.
  Proof.
    unfold close_pool. intros H. apply bind_ok in H as (r & _ & H). apply bind_ok in H as (w1 & H1 & H). apply bind_ok in H as (w2 & H2 & H). apply bind_ok in H as (w3 & H3 & H). injection H as <-.
    eapply hstat_trans; [apply hstat_eq; eapply rank_remove_heap; exact H1|]. eapply hstat_trans; [apply hstat_eq; eapply rankm_remove_heap; exact H2|].
    eapply hstat_trans; [eapply remove_all_hstat; exact H3 | now apply hstat_eq].
  Qed.
  Lemma update_hstat uid w id w' : update_pool uid w id = Ok w' -> hstat w w'.
  Proof.
    unfold update_pool. intros H. apply bind_ok in H as (ag & _ & H). apply bind_ok in H as (new & _ & H). apply bind_ok in H as (r & _ & H). apply bind_ok in H as (p & _ & H).
    apply bind_ok in H as (w1 & H1 & H). apply bind_ok in H as (ag2 & _ & H). apply bind_ok in H as (st & _ & H). apply bind_ok in H as (old & _ & H).
    apply bind_ok in H as (w3 & H3 & H). apply bind_ok in H as (w4 & H4 & H). apply bind_ok in H as (w5 & H5 & H). apply bind_ok in H as (w6 & H6 & H). injection H as <-.
    apply rank_remove_heap in H3. apply rank_add_heap in H4. apply rankm_remove_heap in H5. apply rankm_add_heap in H6. cbn in H3.
    eapply (hstat_trans _ w1); [|apply hstat_eq; cbn; congruence]. destruct (_ && _); [eapply remove_all_hstat; exact H1 | injection H1 as <-; apply hstat_refl].
  Qed.
  Lemma open_hstat uid w id w' : open_pool uid w id = Ok w' -> hstat w w'.
  Proof.
    unfold open_pool. intros H. apply bind_ok in H as (ag & _ & H). apply bind_ok in H as (st & _ & H). apply bind_ok in H as (r & _ & H). apply bind_ok in H as (w2 & H2 & H).
    apply rank_add_heap in H2. apply rankm_add_heap in H. apply hstat_eq. cbn in *. congruence.
  Qed.
  Lemma execute_hstat w uid w' : execute_strategy so w uid = Ok w' -> hstat w w'.
  Proof.
    unfold execute_strategy. intros H. apply bind_ok in H as (ag & _ & H). apply bind_ok in H as (old & _ & H). apply bind_ok in H as (new & _ & H).
    apply bind_ok in H as (w1 & H1 & H). apply bind_ok in H as (w2 & H2 & H). apply bind_ok in H as (w3 & H3 & H). apply bind_ok in H as (w4 & H4 & H). apply bind_ok in H as (ag4 & _ & H).
    eapply hstat_trans; [eapply hstat_foldM; [|exact H1]; intros ? ? ? E; eapply touch_hstat; exact E|].
    eapply hstat_trans; [eapply hstat_foldM; [|exact H2]; intros ? ? ? E; eapply touch_hstat; exact E|].
    eapply hstat_trans; [eapply hstat_foldM; [|exact H3]; intros ? ? ? E; eapply close_hstat; exact E|].
    eapply hstat_trans; [eapply hstat_foldM; [|exact H4]; intros ? ? ? E; eapply update_hstat; exact E|].
    match type of H with foldM _ _ ?w5 = _ => apply (hstat_trans _ w5); [now apply hstat_eq|] end.
    eapply hstat_foldM; [|exact H]; intros ? ? ? E; eapply open_hstat; exact E.
  Qed.
End Static.
