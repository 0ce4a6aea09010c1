(** The margin Stakeholder.calculate_margin works out for a pool (C90).  During a run find_operator_move takes the margins that belong to the number of pools and never comes to this method;
    it is part of the interface of agents all the same. *)
From Coq Require Import ZArith QArith Qcanon List Bool Arith Lia Permutation Sorted.
From Verif Require Import Num Py QcTac Rewards RewardFacts SortedKeyList SLFacts World Stakeholder Sched Sim Init Reach ListFacts Inv Eval Exec Static Step SimInv Spec Greedy PropInit ExactInv PropExact PropState PropMove PropSearch Demo.
From Verif Require Import PropTopK TotalEval Profit PropTotal Concave.
Import ListNotations.
Open Scope nat_scope.

(** * Specification *)
(** how many pools in operation satisfy [f] *)
Definition pools_with (w : world QcA) (f : pool QcA -> bool) : nat := length (filter f (pools_of w)).
(** [t] is the potential profit of the pool in the k-th place by desirability (fewer than k pools are more desirable, at least k are as desirable), or 0 if fewer than k pools attract anybody *)
Definition kth_profit (w : world QcA) (t : Qc) : Prop :=
  (exists id q, active w id q /\ t = p_pp q /\ (Z.of_nat (pools_with w (fun p => Qc_ltb (p_des q) (p_des p))) < r_k (w_rss w) <= Z.of_nat (pools_with w (fun p => Qc_leb (p_des q) (p_des p))))%Z) \/
  (t = 0%Qc /\ (Z.of_nat (pools_with w (fun p => Qc_ltb 0%Qc (p_des p))) < r_k (w_rss w))%Z).

(** * The k-th place *)
Section Place.
  Context (w : world QcA) (m : nat) (rk : sl QcA).
  Hypothesis R : rank_ok (fun p => Ok (pool_key p)) (w_heap w) m (values (w_pools w)) rk.
  Lemma count_all f : length (filter (meets w f) (sl_elems rk)) = pools_with w f.
  Proof.
    destruct R as (_ & P & _). rewrite (filter_length_perm _ _ _ P), filter_app, app_length.
    assert (E0 : filter (meets w f) (repeat None m) = []) by (clear; induction m as [|n IH]; [reflexivity | exact IH]). rewrite E0. cbn [length plus].
    unfold pools_with, pools_of, values. generalize (w_pools w) as d. induction d as [|[id r] d IH]; [reflexivity|]. cbn [map flat_map snd filter].
    unfold meets in *. destruct (get (w_heap w) r) as [p|]; cbn [app filter]; [|exact IH]. destruct (f p); cbn [length]; congruence.
  Qed.
  Lemma place_above i e : nth_error (sl_elems rk) i = Some e -> pools_with w (fun p => Qc_ltb (worth w e) (p_des p)) <= i.
  Proof.
    intros E. rewrite <- count_all. assert (N : forall y, (worth w y <= worth w e)%Qc -> meets w (fun q => Qc_ltb (worth w e) (p_des q)) y = false).
    { intros y Ly. unfold meets. unfold worth at 1 in Ly. destruct y as [r|]; [|reflexivity]. destruct (get (w_heap w) r) as [q|]; [|reflexivity]. destruct (Qc_ltb_spec (worth w e) (p_des q)); [exfalso; qlra | reflexivity]. }
    eapply at_most; [apply (elems_sorted w m rk R) | exact E | apply N, Qcle_refl | intros y _; apply N].
  Qed.
  (** pools come before the placeholders *)
  Lemma place_upto i r q : (forall r' p, get (w_heap w) r' = Some p -> In r' (values (w_pools w)) -> (0 <= p_des p)%Qc /\ (0 < p_pp p)%Qc) -> nth_error (sl_elems rk) i = Some (Some r) -> get (w_heap w) r = Some q -> i + 1 <= pools_with w (fun p => Qc_leb (p_des q) (p_des p)).
  Proof.
    intros Pos E Gq. rewrite <- count_all. set (f := meets w (fun p => Qc_leb (p_des q) (p_des p))).
    assert (L : length (filter f (sl_elems rk)) = length (filter (fun x => f (snd x)) rk)).
    { unfold sl_elems. clear. induction rk as [|x l IH]; [reflexivity|]. cbn. destruct (f (snd x)); cbn; congruence. }
    rewrite L. clear L. assert (E' : exists k, nth_error rk i = Some (k, Some r)).
    { unfold sl_elems in E. rewrite nth_error_map in E. destruct (nth_error rk i) as [[k e]|]; [|discriminate E]. cbn in E. injection E as ->. eauto. }
    destruct E' as (k & E'). assert (Jk := nth_error_In _ _ E'). assert (R' := R). destruct R' as (S & _ & F). assert (Fk := F _ _ Jk). destruct Fk as (q' & Gq' & Kq). rewrite Gq in Gq'. injection Gq' as <-. apply Ok_inj in Kq.
    assert (Jr := rank_ok_elem _ _ _ _ _ _ _ R Jk). destruct (Pos r q Gq Jr) as [D0 P0].
    apply (at_least (fun x y => key_ltb (fst y) (fst x) = false) (fun x => f (snd x)) rk i (k, Some r) S E').
    - unfold f, meets. cbn [snd]. rewrite Gq. destruct (Qc_leb_spec (p_des q) (p_des q)) as [|Q]; [reflexivity | exfalso; apply Q, Qcle_refl].
    - intros [k' e] J L. cbn [fst snd] in *. assert (Fe := F _ _ J). subst k. destruct e as [r'|].
      + destruct Fe as (p & Gp & Kp). apply Ok_inj in Kp. subst k'. unfold f, meets. rewrite Gp. destruct (Qc_leb_spec (p_des q) (p_des p)) as [|Q]; [reflexivity | exfalso]. unfold key_ltb, pool_key, opp in L. cbn [eqb ltb QcA sub zero] in L.
        destruct (Qc_eqb_spec (0 - p_des q)%Qc (0 - p_des p)%Qc) as [X|X]; [apply Q; qlra|]. destruct (Qc_ltb_spec (0 - p_des q)%Qc (0 - p_des p)%Qc) as [Y|Y]; [discriminate L | apply Y; apply Qcnot_le_lt in Q; qlra].
      + exfalso. subst k'. unfold key_ltb, pool_key, key_none, opp in L. cbn [eqb ltb QcA sub zero] in L.
        destruct (Qc_eqb_spec (0 - p_des q)%Qc 0%Qc) as [X|X].
        * destruct (Qc_eqb_spec (0 - p_pp q)%Qc 0%Qc) as [X'|X']; [qlra|]. destruct (Qc_ltb_spec (0 - p_pp q)%Qc 0%Qc) as [Y|Y]; [discriminate L | apply Y; qlra].
        * destruct (Qc_ltb_spec (0 - p_des q)%Qc 0%Qc) as [Y|Y]; [discriminate L|]. apply X. qlra.
  Qed.
End Place.
(** * Theorems *)
(** Whoever is not an abstainer gets a margin for any pool object, between 0 and 1, and 0 for a private one. *)
Theorem C90_calculate_margin_is_a_margin :
  forall so (g : args QcA) profiles (stakes costs : list Qc) (s0 : sim QcA) w a ag (p : pool QcA), set_order so -> init g profiles stakes costs = Ok s0 -> one_at_a_time g -> relaxing g -> sound_inputs g stakes -> ~ degenerate_cip50 g ->
  visible so s0 w -> get (w_agents w) a = Some ag -> a_profile ag <> Abstainer ->
  exists m : Qc, calculate_margin w ag p = Ok m /\ (0 <= m)%Qc /\ (m <= 1)%Qc /\ (p_private p = true -> m = 0%Qc).
Proof.
  intros so g profiles stakes costs s0 w a ag p SO H OT RX SI ND V Ga Pr. destruct (every_visible so SO g profiles stakes costs s0 H OT RX SI ND w V) as [G HX]. set (m := Z.to_nat (r_k (w_rss (s_w s0)) + 1)) in *.
  destruct (healthy_safe m w G HX) as [_ S]. destruct (rankings_total m _ _ ag Pr w S) as (rk & K & Hrk & R).
  unfold calculate_margin. destruct (p_private p); [exists 0%Qc; split; [reflexivity|]; split; [discriminate|]; split; [discriminate | reflexivity]|]. rewrite Hrk. cbn [bind].
  assert (Hk := sn_k _ _ _ _ S). assert (Hm := sn_m _ _ _ _ S).
  assert (L : (m <= length (sl_elems rk))%nat) by (destruct R as (_ & P & _); rewrite (Permutation_length P), app_length, repeat_length; lia).
  destruct (py_index_ok (sl_elems rk) (r_k (w_rss w) - 1)) as (e & -> & N); [lia|]. cbn [bind]. apply nth_error_In in N.
  assert (X : exists t : Qc, (0 <= t)%Qc /\ match e with None => Ok (zero (a := QcA)) | Some r => let! q := deref w r in Ok (p_pp q) end = Ok t).
  { destruct (rank_elems m _ _ w K rk e S R N) as [->|(r & id & q & -> & J & Gq & _)]; [exists 0%Qc; split; [discriminate | reflexivity]|]. unfold deref. rewrite Gq. cbn [of_option bind]. exists (p_pp q). split; [|reflexivity].
    apply Qclt_le_weak. exact (sn_pp _ _ _ _ S id r q J Gq). }
  destruct X as (t & T0 & ->). cbn [bind]. rewrite suitable_margin_ok. eexists. split; [reflexivity|].
  assert (Y := margin_range (p_pp p) t _ T0 (suitable_margin_ok _ _)). split; [apply Y|]. split; [apply Y | discriminate].
Qed.

(** For a non-myopic agent and a public pool worth having, it is the margin that makes the pool exactly as desirable as the potential profit of the pool in the k-th place allows, or 0 if the pool cannot reach that. *)
Theorem C90_calculate_margin_matches_the_kth_pool :
  forall so (g : args QcA) profiles (stakes costs : list Qc) (s0 : sim QcA) w a ag (p : pool QcA) (m : Qc), set_order so -> init g profiles stakes costs = Ok s0 -> one_at_a_time g -> relaxing g -> sound_inputs g stakes -> ~ degenerate_cip50 g ->
  visible so s0 w -> get (w_agents w) a = Some ag -> a_profile ag = NonMyopic -> p_private p = false -> (0 < p_pp p)%Qc -> calculate_margin w ag p = Ok m ->
  exists t : Qc, kth_profit w t /\ (if Qc_leb t (p_pp p) then ((1 - m) * p_pp p = t)%Qc else m = 0%Qc).
Proof.
  intros so g profiles stakes costs s0 w a ag p mg SO H OT RX SI ND V Ga Pr Nv Pp Hc. destruct (every_visible so SO g profiles stakes costs s0 H OT RX SI ND w V) as [G HX]. set (m := Z.to_nat (r_k (w_rss (s_w s0)) + 1)) in *.
  destruct (healthy_safe m w G HX) as [_ S]. assert (Hk := sn_k _ _ _ _ S). assert (R := i_rank _ _ _ _ _ _ (sn_inv _ _ _ _ S)).
  unfold calculate_margin in Hc. rewrite Nv in Hc. unfold rankings in Hc. rewrite Pr in Hc. cbn [bind] in Hc. apply bind_ok in Hc as (e & He & Hc). apply bind_ok in Hc as (t & Ht & Hc).
  assert (N : nth_error (sl_elems (w_rank w)) (Z.to_nat (r_k (w_rss w) - 1)) = Some e) by (apply py_index_nth; rewrite Z2Nat.id by lia; exact He).
  assert (A := place_above w m _ R _ _ N). assert (E := nth_error_In _ _ N).
  assert (Q : kth_profit w t /\ (0 <= t)%Qc).
  { destruct (rank_elems m _ _ w _ _ e S R E) as [->|(r & id & q & -> & J & Gq & _)].
    - injection Ht as <-. split; [|discriminate]. right. split; [reflexivity|]. cbn [worth] in A. lia.
    - unfold deref in Ht. rewrite Gq in Ht. cbn [of_option bind] in Ht. injection Ht as <-. split; [|apply Qclt_le_weak; exact (sn_pp _ _ _ _ S id r q J Gq)].
      left. exists id, q. split; [exists r; auto|]. split; [reflexivity|]. cbn [worth] in A. rewrite Gq in A. split; [lia|].
      enough (B : Z.to_nat (r_k (w_rss w) - 1) + 1 <= pools_with w (fun p => Qc_leb (p_des q) (p_des p))) by lia.
      eapply (place_upto w m _ R); [|exact N | exact Gq]. intros r' p' Gp' J'. destruct (reg_values m _ _ w r' S J') as (id' & I'). split; [|exact (sn_pp _ _ _ _ S id' r' p' I' Gp')].
      destruct (good_active _ _ _ _ _ G id' p' (ex_intro _ r' (conj I' Gp'))) as (_ & _ & _ & FF & _). rewrite (pf_des _ _ _ _ FF). unfold desirability. rewrite pmax_max. apply Qcmax_r. }
  destruct Q as [Q T0]. exists t. split; [exact Q|]. rewrite suitable_margin_ok in Hc. injection Hc as <-. destruct (Qc_ltb_spec 0%Qc (p_pp p)); [|contradiction].
  assert (D : (t / p_pp p * p_pp p = t)%Qc) by (apply Qcdiv_mul; intros E0; rewrite E0 in Pp; discriminate Pp).
  destruct (Qc_leb_spec t (p_pp p)) as [L|L].
  - assert (X : (t / p_pp p <= 1)%Qc) by (apply Qcdiv_le; [exact Pp | rewrite Qcmult_1_l; exact L]). replace (Qcmax (1 - t / p_pp p)%Qc 0%Qc) with (1 - t / p_pp p)%Qc by (unfold Qcmax; qcase; qlra).
    replace ((1 - (1 - t / p_pp p)) * p_pp p)%Qc with (t / p_pp p * p_pp p)%Qc by ring. exact D.
  - assert (X : (1 <= t / p_pp p)%Qc) by (apply Qcdiv_ge; [exact Pp | rewrite Qcmult_1_l; apply Qclt_le_weak, Qcnot_le_lt, L]). unfold Qcmax. qcase; qlra.
Qed.

(** * Not only pools in the first k places get a margin *)
Definition place_args : args QcA :=
  mkArgs (A := QcA) (Single 4%Z) (Single (Q2Qc 2)) (Single (Q2Qc (3#10))) (Single 0%Qc) (Single (Q2Qc (1#1000000))) (Single 100%Z) (Single (Q2Qc (1#10))) (Single Sequential) (Single true) 0 0%Qc false 2.
Definition place_profiles := [NonMyopic; NonMyopic; NonMyopic; NonMyopic].
Definition place_stakes : list Qc := [Q2Qc (1#3); Q2Qc (1#3); Q2Qc (4#15); Q2Qc (1#15)].
Definition place_costs : list Qc := [Q2Qc (1#5); Q2Qc (11#20); Q2Qc (3#20); Q2Qc (3#10)].
Definition place_check (s : sim QcA) : bool :=
  let w := s_w s in
  match get (w_agents w) 0%nat, get (w_pools w) 1%nat with
  | Some ag, Some r =>
      match a_profile ag, get (w_heap w) r with
      | NonMyopic, Some p => match calculate_margin w ag p with
                             | Ok m => Qc_ltb 0%Qc m && Z.eqb (r_k (w_rss w)) 2 && Nat.eqb (p_owner p) 0 && Nat.leb 2 (pools_with w (fun q => Qc_ltb (p_pp p) (p_pp q))) && Nat.leb 6 (pools_with w (fun q => Qc_ltb (p_des p) (p_des q))) && negb (p_private p) && Qc_ltb 0%Qc (p_pp p)
                             | Err _ => false
                             end
      | _, _ => false
      end
  | _, _ => false
  end.
Lemma place_run : match (let! s0 := init place_args place_profiles place_stakes place_costs in steps 1 s0) with Ok s => place_check s | Err _ => false end = true.
Proof. vm_compute. reflexivity. Qed.
Lemma place_facts : exists (s0 s : sim QcA) (ag : agent QcA) (p : pool QcA) (m : Qc), init place_args place_profiles place_stakes place_costs = Ok s0 /\ one_at_a_time place_args /\ relaxing place_args /\ sound_inputs place_args place_stakes /\ ~ degenerate_cip50 place_args /\ visible so_id s0 (s_w s) /\ get (w_agents (s_w s)) 0%nat = Some ag /\ a_profile ag = NonMyopic /\ active (s_w s) 1%nat p /\ p_owner p = 0%nat /\ calculate_margin (s_w s) ag p = Ok m /\ (0 < m)%Qc /\ r_k (w_rss (s_w s)) = 2%Z /\ 2 <= pools_with (s_w s) (fun q => Qc_ltb (p_pp p) (p_pp q)) /\ 6 <= pools_with (s_w s) (fun q => Qc_ltb (p_des p) (p_des q)) /\ p_private p = false /\ (0 < p_pp p)%Qc.
Proof.
  destruct (steps_check (init place_args place_profiles place_stakes place_costs) 1 place_check place_run) as (s0 & s & H0 & H1 & H2). unfold place_check in H2. cbv zeta in H2.
  destruct (get (w_agents (s_w s)) 0%nat) as [ag|] eqn:Ga; [|clear - H2; discriminate]. destruct (get (w_pools (s_w s)) 1%nat) as [r|] eqn:Gr; [|clear - H2; discriminate].
  destruct (a_profile ag) eqn:Pr; [|clear - H2; discriminate..]. destruct (get (w_heap (s_w s)) r) as [p|] eqn:Gp; [|clear - H2; discriminate].
  destruct (calculate_margin (s_w s) ag p) as [m|] eqn:Hm; [|clear - H2; discriminate].
  apply andb_true_iff in H2 as [H2 P0]. apply andb_true_iff in H2 as [H2 Pv]. apply andb_true_iff in H2 as [H2 C6]. apply andb_true_iff in H2 as [H2 C2]. apply andb_true_iff in H2 as [H2 Ow]. apply andb_true_iff in H2 as [M0 K].
  exists s0, s, ag, p, m. split; [exact H0|]. split; [constructor; [right; reflexivity | constructor]|]. split; [apply single_relaxing; intros f J; cbn in J; repeat (destruct J as [<-|J]; [eexists; reflexivity|]); destruct J|].
  split; [repeat split; try discriminate; [intros x J; repeat destruct J as [<-|J]; try reflexivity; destruct J | cbn; intros x [<-|[]]; discriminate | cbn; intros x [<-|[]]; discriminate]|].
  split; [intros [E _]; discriminate E|]. split; [apply vis_between, (steps_reach 1), H1|]. split; [exact Ga|]. split; [exact Pr|]. split; [exists r; auto|]. split; [now apply Nat.eqb_eq|]. split; [exact Hm|].
  split; [clear - M0; destruct (Qc_ltb_spec 0%Qc m); [assumption | discriminate]|]. split; [now apply Z.eqb_eq|]. split; [now apply Nat.leb_le|]. split; [now apply Nat.leb_le|].
  split; [now apply negb_true_iff|]. clear - P0. destruct (Qc_ltb_spec 0%Qc (p_pp p)); [assumption | discriminate].
Qed.
(** REFUTED: the documentation says that the margin is "non-zero only if the pool ranks in the top k".  With k = 2 an agent works out a positive margin for its own pool, although two pools have a higher potential
    profit and six are more desirable. *)
Theorem C90_margin_outside_the_top_k_refuted : exists so (g : args QcA) profiles (stakes costs : list Qc) (s0 : sim QcA) w ag id p (m : Qc), set_order so /\ init g profiles stakes costs = Ok s0 /\ one_at_a_time g /\ relaxing g /\ sound_inputs g stakes /\ ~ degenerate_cip50 g /\ visible so s0 w /\ get (w_agents w) (p_owner p) = Some ag /\ a_profile ag = NonMyopic /\ active w id p /\ calculate_margin w ag p = Ok m /\ (0 < m)%Qc /\ (r_k (w_rss w) <= Z.of_nat (pools_with w (fun q => Qc_ltb (p_pp p) (p_pp q))))%Z /\ (r_k (w_rss w) <= Z.of_nat (pools_with w (fun q => Qc_ltb (p_des p) (p_des q))))%Z.
Proof.
  destruct place_facts as (s0 & s & ag & p & m & H0 & H1 & H2 & H3 & H4 & H5 & H6 & H7 & H8 & H9 & H10 & H11 & H12 & H13 & H14 & _). exists so_id, place_args, place_profiles, place_stakes, place_costs, s0, (s_w s), ag, 1%nat, p, m.
  split; [exact so_id_set_order|]. rewrite H9, H12. repeat (split; [assumption|]). lia.
Qed.
(** the state also meets the hypotheses of the two theorems above *)
Example C90_instance : exists (s0 s : sim QcA) (ag : agent QcA) (p : pool QcA) (m : Qc), init place_args place_profiles place_stakes place_costs = Ok s0 /\ one_at_a_time place_args /\ relaxing place_args /\ sound_inputs place_args place_stakes /\ ~ degenerate_cip50 place_args /\ visible so_id s0 (s_w s) /\ get (w_agents (s_w s)) 0%nat = Some ag /\ a_profile ag = NonMyopic /\ p_private p = false /\ (0 < p_pp p)%Qc /\ calculate_margin (s_w s) ag p = Ok m.
Proof. destruct place_facts as (s0 & s & ag & p & m & H). exists s0, s, ag, p, m. tauto. Qed.
