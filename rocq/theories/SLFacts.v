(** Facts about the sorted lists of SortedKeyList.v. *)
From Coq Require Import ZArith List Bool Arith Lia Permutation Sorted.
From Verif Require Import Num Py SortedKeyList ListFacts.
Import ListNotations.
Open Scope nat_scope.

Section SLFacts.
  Variable A : Arith.
  Hypothesis O : OrdLaws A.
  Notation key := (key A).

  Lemma key_ltb_lex (x y : key) : key_ltb x y = lex_ltb (lex_ltb (@ltb A) (@ltb A)) Z.ltb x y.
  Proof.
    destruct x as [[x1 x2] x3], y as [[y1 y2] y3]. unfold key_ltb, lex_ltb. cbn [fst snd]. rewrite !(num_eqb A O). unfold sw_eqb. cbn [fst snd].
    destruct (ltb x1 y1) eqn:E1, (ltb y1 x1) eqn:E2, (ltb x2 y2) eqn:E3, (ltb y2 x2) eqn:E4; cbn; try reflexivity;
      try (rewrite (sw_asym (sw_num A O) _ _ E1) in E2; discriminate); try (rewrite (sw_asym (sw_num A O) _ _ E3) in E4; discriminate).
  Qed.
  Lemma key_sw : StrictWeak (@key_ltb A).
  Proof.
    assert (H : StrictWeak (lex_ltb (lex_ltb (@ltb A) (@ltb A)) Z.ltb)) by (apply lex_sw; [apply lex_sw; now apply sw_num | apply sw_Zltb]).
    destruct H as [H1 H2 H3]. constructor; intros *; rewrite ?key_ltb_lex; eauto.
  Qed.
  Lemma key_eqb_sw (x y : key) : key_eqb x y = sw_eqb key_ltb x y.
  Proof.
    unfold sw_eqb. destruct x as [[x1 x2] x3], y as [[y1 y2] y3]. unfold key_eqb, key_ltb. rewrite !(num_eqb A O), (sw_eqb_sym (lt := @ltb A) y1), (sw_eqb_sym (lt := @ltb A) y2).
    unfold sw_eqb.
    destruct (ltb x1 y1) eqn:E1, (ltb y1 x1) eqn:E2; cbn; rewrite ?andb_false_r; try reflexivity.
    destruct (ltb x2 y2) eqn:E3, (ltb y2 x2) eqn:E4; cbn; rewrite ?andb_false_r; try reflexivity.
    destruct (Z.eqb_spec x3 y3), (Z.ltb_spec x3 y3), (Z.ltb_spec y3 x3); cbn; try reflexivity; lia.
  Qed.
  Lemma key_eqb_refl (x : key) : key_eqb x x = true.
  Proof. rewrite key_eqb_sw. apply sw_eqb_refl. exact key_sw. Qed.
  Lemma key_eqb_true (x y : key) : key_eqb x y = true <-> key_ltb x y = false /\ key_ltb y x = false.
  Proof. rewrite key_eqb_sw. apply sw_eqb_true. Qed.
  Lemma key_eqb_id (x y : key) : key_eqb x y = true -> snd x = snd y.
  Proof. destruct x as [[? ?] ?], y as [[? ?] ?]. cbn. rewrite !andb_true_iff. intros [_ H]. now apply Z.eqb_eq. Qed.
  Lemma elt_eqb_spec x y : elt_eqb x y = true <-> x = y.
  Proof. destruct x, y; cbn; split; intros; try discriminate; try reflexivity; try congruence; [apply Nat.eqb_eq in H; congruence | injection H as ->; apply Nat.eqb_refl]. Qed.

  Definition ent_ltb (x y : key * option nat) : bool := key_ltb (fst x) (fst y).
  Definition sl_sorted (l : sl A) : Prop := sorted ent_ltb l.
  Lemma ent_sw : StrictWeak ent_ltb.
  Proof. apply (sw_comap fst). exact key_sw. Qed.

  Lemma sl_add_perm k v (l : sl A) : Permutation (sl_add k v l) ((k, v) :: l).
  Proof.
    induction l as [|e l IH]; cbn; [reflexivity|]. destruct (key_ltb k (fst e)); [reflexivity|].
    rewrite IH. apply perm_swap.
  Qed.
  Lemma sl_add_sorted (k : key) v (l : sl A) : sl_sorted l -> sl_sorted (sl_add k v l).
  Proof.
    induction l as [|e l IH]; cbn; intros H.
    - constructor; [constructor | constructor].
    - apply StronglySorted_inv in H as [H1 H2]. destruct (key_ltb k (fst e)) eqn:E.
      + constructor; [constructor; assumption|]. constructor.
        * exact (sw_asym ent_sw (k, v) e E).
        * rewrite Forall_forall in *. intros x Hx. apply (sw_asym ent_sw). eapply (sw_lt_le_trans ent_sw); [exact E | now apply H2].
      + constructor; [now apply IH|]. rewrite Forall_forall in *. intros x Hx. apply (Permutation_in _ (sl_add_perm k v l)) in Hx as [<-|Hx]; [exact E | now apply H2].
  Qed.

  Lemma sl_scan_remove_ok (k : key) v (l : sl A) l' : sl_scan_remove k v l = Ok l' ->
    exists l1 e l2, l = l1 ++ e :: l2 /\ l' = l1 ++ l2 /\ snd e = v /\ key_eqb (fst e) k = true.
  Proof.
    revert l'. induction l as [|e l IH]; intros l'; cbn; [discriminate|].
    destruct (key_eqb (fst e) k) eqn:E; cbn; [|discriminate].
    destruct (elt_eqb (snd e) v) eqn:Ev.
    - intros [= <-]. apply elt_eqb_spec in Ev. exists [], e, l. auto.
    - intros H. apply bind_ok in H as (r & Hr & [= <-]). destruct (IH _ Hr) as (l1 & e' & l2 & -> & -> & ? & ?). exists (e :: l1), e', l2. auto.
  Qed.
  Lemma sl_remove_ok (k : key) v (l : sl A) l' : sl_remove k v l = Ok l' ->
    exists l1 e l2, l = l1 ++ e :: l2 /\ l' = l1 ++ l2 /\ snd e = v /\ key_eqb (fst e) k = true.
  Proof.
    revert l'. induction l as [|e l IH]; intros l'; cbn [sl_remove]; [discriminate|].
    destruct (key_ltb (fst e) k) eqn:E.
    - intros H. apply bind_ok in H as (r & Hr & [= <-]). destruct (IH _ Hr) as (l1 & e' & l2 & -> & -> & ? & ?). exists (e :: l1), e', l2. auto.
    - apply sl_scan_remove_ok.
  Qed.
  Lemma sl_sorted_drop l1 (e : key * option nat) l2 : sl_sorted (l1 ++ e :: l2) -> sl_sorted (l1 ++ l2).
  Proof.
    unfold sl_sorted. rewrite !sorted_app. intros (H1 & H2 & H3). apply StronglySorted_inv in H2 as [H2 _].
    split; [assumption|]. split; [assumption|]. intros x y Hx Hy. apply H3; [assumption | now right].
  Qed.

  (** an element with its stored key can be found again, provided entries with an equal key are distinguished by identity *)
  Lemma sl_remove_total (k k0 : key) v (l : sl A) : sl_sorted l -> In (k0, v) l -> key_eqb k0 k = true -> exists l', sl_remove k v l = Ok l'.
  Proof.
    intros Hs HI Hk. apply key_eqb_true in Hk as [Hk1 Hk2]. induction l as [|e l IH]; [destruct HI|].
    apply StronglySorted_inv in Hs as [Hs1 Hs2]. cbn [sl_remove].
    destruct (key_ltb (fst e) k) eqn:E.
    - destruct HI as [->|HI]; [cbn in E; congruence|]. destruct (IH Hs1 HI) as [l' ->]. cbn. eauto.
    - (* scan *)
      clear IH. assert (Scan : forall l : sl A, sl_sorted l -> In (k0, v) l -> (forall x, In x l -> key_ltb (fst x) k = false) -> exists l', sl_scan_remove k v l = Ok l').
      { clear -O Hk1 Hk2. induction l as [|e l IH]; intros Hs HI Hge; [destruct HI|]. cbn [sl_scan_remove].
        assert (Ek : key_eqb (fst e) k = true).
        { apply key_eqb_true. split; [apply Hge; now left|]. destruct HI as [->|HI]; [exact Hk2|].
          apply StronglySorted_inv in Hs as [_ Hs2]. rewrite Forall_forall in Hs2. specialize (Hs2 _ HI). unfold ent_ltb in Hs2. cbn in Hs2.
          eapply (sw_ntrans key_sw); eassumption. }
        rewrite Ek. cbn [negb]. destruct (elt_eqb (snd e) v) eqn:Ev; [eauto|].
        destruct HI as [He|HI]; [subst e; cbn in Ev; rewrite (proj2 (elt_eqb_spec v v) eq_refl) in Ev; discriminate|].
        apply StronglySorted_inv in Hs as [Hs1 _]. destruct (IH Hs1 HI) as [l' ->]; [intros; apply Hge; now right|]. cbn. eauto. }
      apply Scan; [constructor; assumption | assumption |]. intros x [<-|Hx]; [assumption|].
      rewrite Forall_forall in Hs2. specialize (Hs2 x Hx). unfold ent_ltb in Hs2. eapply (sw_ntrans key_sw); eassumption.
  Qed.

  Lemma sl_scan_index_ok (k : key) v (l : sl A) i : sl_scan_index k v l = Ok i -> exists e, nth_error l i = Some e /\ snd e = v /\ key_eqb (fst e) k = true.
  Proof.
    revert i. induction l as [|e l IH]; intros i; cbn; [discriminate|].
    destruct (key_eqb (fst e) k) eqn:E; cbn; [|discriminate].
    destruct (elt_eqb (snd e) v) eqn:Ev.
    - intros [= <-]. apply elt_eqb_spec in Ev. exists e. auto.
    - intros H. apply bind_ok in H as (j & Hj & [= <-]). cbn. eauto.
  Qed.
  Lemma sl_index_ok (k : key) v (l : sl A) i : sl_index k v l = Ok i -> exists e, nth_error l i = Some e /\ snd e = v /\ key_eqb (fst e) k = true.
  Proof.
    revert i. induction l as [|e l IH]; intros i; cbn [sl_index]; [discriminate|].
    destruct (key_ltb (fst e) k) eqn:E.
    - intros H. apply bind_ok in H as (j & Hj & [= <-]). cbn. eauto.
    - apply sl_scan_index_ok.
  Qed.
  (** sl_index succeeds exactly when sl_remove does *)
  Lemma sl_index_remove (k : key) v (l : sl A) : (exists i, sl_index k v l = Ok i) <-> (exists l', sl_remove k v l = Ok l').
  Proof.
    assert (Scan : forall l : sl A, (exists i, sl_scan_index k v l = Ok i) <-> (exists l', sl_scan_remove k v l = Ok l')).
    { clear. induction l as [|e l IH]; cbn; [split; intros [? ?]; discriminate|].
      destruct (key_eqb (fst e) k); cbn; [|split; intros [? ?]; discriminate].
      destruct (elt_eqb (snd e) v); [split; eauto|].
      split; intros [x H]; apply bind_ok in H as (y & Hy & _); [destruct IH as [IH _] | destruct IH as [_ IH]]; destruct IH as [z ->]; eauto; cbn; eauto. }
    induction l as [|e l IH]; cbn [sl_index sl_remove]; [split; intros [? ?]; discriminate|].
    destruct (key_ltb (fst e) k); [|apply Scan].
    split; intros [x H]; apply bind_ok in H as (y & Hy & _); [destruct IH as [IH _] | destruct IH as [_ IH]]; destruct IH as [z ->]; eauto; cbn; eauto.
  Qed.
  Lemma sl_index_total (k k0 : key) v (l : sl A) : sl_sorted l -> In (k0, v) l -> key_eqb k0 k = true -> exists i, sl_index k v l = Ok i.
  Proof. intros. apply sl_index_remove. eapply sl_remove_total; eassumption. Qed.
End SLFacts.
Arguments sl_sorted {A}. Arguments ent_ltb {A}.
