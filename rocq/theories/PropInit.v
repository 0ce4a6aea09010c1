(** Construction of a simulation: normalisation of stakes (C27), inactive stake (C28), inflated k (C32, first phase). *)
From Coq Require Import ZArith QArith Qcanon List Bool Arith Lia Permutation.
From Verif Require Import Num Py QcTac Rewards SortedKeyList World Stakeholder Sched Sim Init RewardFacts ListFacts Greedy PropHelper Reach SimInv.
Import ListNotations.
Open Scope nat_scope.

Lemma psum_sum (l : list Qc) : psum (A := QcA) l = Qc_sum l.
Proof.
  assert (H : forall l (x : Qc), fold_left Qcplus l x = (x + Qc_sum l)%Qc).
  { clear l. induction l as [|y l IH]; intros x; cbn [fold_left]; [change (Qc_sum []) with 0%Qc; ring|]. rewrite IH. change (Qc_sum (y :: l)) with (y + Qc_sum l)%Qc. ring. }
  unfold psum. change (@add QcA) with Qcplus. rewrite H. change (@zero QcA) with 0%Qc. apply Qcplus_0_l.
Qed.

(** the steps of the constructor *)
Lemma init_inv {A : Arith} (g : args A) profiles stakes costs s0 : init g profiles stakes costs = Ok s0 ->
  exists r0 s1 ags tot ags' tot', make_rss (g_scheme g) = Ok r0 /\ foldM set_field (fields g) (blank r0) = Ok s1 /\
    (if g_known g then exists k', pdiv (ofZ (r_k (w_rss (s_w s1)))) (sub one (g_inactive g)) = Ok k' /\ set_k (w_rss (s_w s1)) k' = Ok (w_rss (s_w s0))
     else w_rss (s_w s0) = w_rss (s_w s1)) /\
    make_agents (s_n s1) profiles stakes costs = Ok ags /\ pdiv (psum stakes) (sub one (g_inactive g)) = Ok tot /\ leb tot zero = false /\
    (if eqb tot one then ags' = ags /\ tot' = tot else normalize tot ags = Ok (ags', tot')) /\
    w_agents (s_w s0) = ags' /\ w_total (s_w s0) = tot' /\ s_n s0 = s_n s1 /\ s_maxit s0 = s_maxit s1 /\ s_order s0 = s_order s1 /\ s_graphs s0 = s_graphs s1 /\
    w_rel (s_w s0) = w_rel (s_w s1) /\ w_abs (s_w s0) = w_abs (s_w s1) /\ w_phi (s_w s0) = w_phi (s_w s1).
Proof.
  intros H. unfold init in H. apply bind_ok in H as (r0 & H0 & H). apply bind_ok in H as (s1 & H1 & H). apply bind_ok in H as (r1 & H2 & H). apply bind_ok in H as (ags & H3 & H).
  apply bind_ok in H as (tot & H4 & H). destruct (leb tot zero) eqn:E; [discriminate|]. apply bind_ok in H as ([ags' tot'] & H5 & H). injection H as <-. cbn.
  exists r0, s1, ags, tot, ags', tot'. repeat (split; [first [assumption | reflexivity]|]). split.
  { destruct (g_known g); [|congruence]. apply bind_ok in H2 as (k' & J1 & J2). eauto. }
  repeat (split; [first [assumption | reflexivity]|]). split; [|auto 10].
  destruct (eqb tot one); [injection H5 as -> ->; now split | assumption].
Qed.

Definition agent_stakes {A : Arith} (d : dict (agent A)) : list (T A) := map (fun e => a_stake (snd e)) d.

Lemma make_agents_stakes {A : Arith} n profiles (stakes costs : list (T A)) d : make_agents n profiles stakes costs = Ok d ->
  agent_stakes d = firstn (Z.to_nat n) stakes /\ length d = Z.to_nat n.
Proof.
  intros H. unfold make_agents in H. split; [|apply mapM_length in H; now rewrite seq_length in H].
  assert (G : forall len b d, mapM (fun i : nat => let! p := py_index profiles (Z.of_nat i) in let! s := py_index stakes (Z.of_nat i) in let! c := py_index costs (Z.of_nat i) in Ok (i, new_agent i p s c)) (seq b len) = Ok d ->
     agent_stakes d = firstn len (skipn b stakes)).
  { clear. induction len as [|len IH]; intros b d H; cbn in H; [injection H as <-; reflexivity|].
    apply bind_ok in H as (e & He & H). apply bind_ok in H as (d' & Hd & H). injection H as <-. apply IH in Hd.
    apply bind_ok in He as (p & Hp & He). apply bind_ok in He as (s & Hs & He). apply bind_ok in He as (c & Hc & He). injection He as <-.
    apply py_index_nth in Hs. unfold agent_stakes in *. cbn [map snd]. rewrite Hd. cbn.
    clear - Hs. revert stakes Hs. induction b as [|b IH]; intros [|x l] Hs; cbn in *; try discriminate; [now injection Hs as ->|]. now apply IH. }
  apply G in H. exact H.
Qed.
Lemma make_agents_nth {A : Arith} n profiles (stakes costs : list (T A)) d a ag : make_agents n profiles stakes costs = Ok d -> get d a = Some ag -> nth_error (agent_stakes d) a = Some (a_stake ag) /\ a < length d.
Proof.
  intros H G. destruct (make_agents_spec _ _ _ _ _ H) as [K1 K2]. destruct (make_agents_stakes _ _ _ _ _ H) as [S1 S2].
  destruct (K2 a ag G) as (p & s & c & -> & _ & J & _). assert (L : a < Z.to_nat n).
  { assert (In a (keys d)) by (apply get_Some_key; eauto). rewrite K1 in H0. apply in_seq in H0. lia. }
  rewrite S2. split; [|assumption]. rewrite S1. rewrite nth_error_firstn || idtac. cbn.
  clear - J L. revert stakes a J L. induction (Z.to_nat n) as [|k IH]; intros stakes a J L; [lia|]. destruct stakes as [|x l]; [destruct a; discriminate|]. destruct a; cbn in *; [assumption|]. apply IH; [assumption | lia].
Qed.

Section Norm.
  Open Scope Qc_scope.
  Lemma normalize_spec (tot : Qc) d d' (t : Qc) : tot <> 0 -> normalize (A := QcA) tot d = Ok (d', t) ->
    t = 1 /\ Qc_sum (agent_stakes d') = 1 /\ length d' = length d /\
    forall i (x : Qc), nth_error (agent_stakes d) i = Some x ->
      nth_error (agent_stakes d') i = Some (if Nat.eqb (S i) (length d) then x / tot + (1 - Qc_sum (agent_stakes d) / tot) else x / tot).
  Proof.
    intros Ht H. unfold normalize in H. apply bind_ok in H as (d1 & H1 & H). rewrite psum_sum in H. fold (agent_stakes d1) in H.
    assert (S1 : agent_stakes d1 = map (fun x => x / tot) (agent_stakes d) /\ length d1 = length d).
    { clear H. revert d1 H1. induction d as [|[i ag] d IH]; intros d1 H1; cbn in H1; [injection H1 as <-; split; reflexivity|].
      apply bind_ok in H1 as (e & He & H1). apply bind_ok in H1 as (d2 & H2 & H1). injection H1 as <-. rewrite pdiv_ok in He by assumption. injection He as <-.
      destruct (IH _ H2) as [E1 E2]. split; [|cbn; now rewrite E2]. change ((a_stake ag / tot) :: agent_stakes d2 = (a_stake ag / tot) :: map (fun x => x / tot) (agent_stakes d)). now rewrite E1. }
    destruct S1 as [S1 L1].
    assert (S2 : Qc_sum (agent_stakes d1) = Qc_sum (agent_stakes d) / tot).
    { rewrite S1. clear - Ht. induction (agent_stakes d) as [|x l IH]; [change (Qc_sum (map (fun x => x / tot) [])) with 0; change (Qc_sum []) with 0; now field|].
      cbn [map]. change (Qc_sum (x / tot :: map (fun x => x / tot) l)) with (x / tot + Qc_sum (map (fun x => x / tot) l)). change (Qc_sum (x :: l)) with (x + Qc_sum l). rewrite IH. now field. }
    assert (N1 : forall i (x : Qc), nth_error (agent_stakes d) i = Some x -> nth_error (agent_stakes d1) i = Some (x / tot)).
    { intros i x J. rewrite S1. exact (map_nth_error (fun x => x / tot) i _ J). }
    assert (N2 : forall i (x : Qc), nth_error (agent_stakes d) i = Some x -> (i < length d)%nat).
    { intros i x J. assert (L : (i < length (agent_stakes d))%nat) by (apply nth_error_Some; congruence). unfold agent_stakes in L. now rewrite map_length in L. }
    change (@eqb QcA) with Qc_eqb in H. change (@one QcA) with 1 in H.
    destruct (Qc_eqb_spec (Qc_sum (agent_stakes d1)) 1) as [E|E].
    - injection H as <- <-. repeat (split; [assumption|]). intros i x J. rewrite (N1 i x J). f_equal. destruct (Nat.eqb (S i) (length d)); [|reflexivity]. rewrite <- S2, E. ring.
    - destruct d1 as [|e1 d1']; [discriminate|]. remember (e1 :: d1') as d1 eqn:Ed1. assert (Ne : d1 <> []) by (subst; discriminate). clear Ed1. injection H as <- <-.
      split; [cbn [add sub one QcA]; ring|].
      destruct (exists_last Ne) as (l & [i0 ag0] & Ed). rewrite S2 in *. set (err := 1 - Qc_sum (agent_stakes d) / tot) in *. change (sub (a := QcA) one (Qc_sum (agent_stakes d) / tot)) with err.
      assert (Ea : add_to_last (A := QcA) d1 err = l ++ [(i0, agent_set_stake (A := QcA) (a_stake ag0 + err) ag0)]).
      { unfold add_to_last. rewrite Ed, rev_app_distr. cbn. rewrite rev_involutive. reflexivity. }
      rewrite Ea. split; [|split].
      + assert (Q : Qc_sum (agent_stakes d1) = Qc_sum (agent_stakes l) + a_stake ag0). { rewrite Ed. unfold agent_stakes. rewrite map_app, Qc_sum_app. cbn [map snd]. change (Qc_sum [a_stake ag0]) with (a_stake ag0 + 0). change (T QcA) with Qc. ring. }
        unfold agent_stakes at 1. rewrite map_app, Qc_sum_app. cbn [map snd agent_set_stake a_stake]. fold (agent_stakes l).
        change (Qc_sum [a_stake ag0 + err]) with (a_stake ag0 + err + 0). rewrite S2 in Q. unfold err. rewrite Q. ring.
      + rewrite app_length. rewrite <- L1, Ed, app_length. reflexivity.
      + intros i x J. specialize (N1 i x J). specialize (N2 i x J). rewrite <- L1 in *. rewrite Ed in N1 |- *. unfold agent_stakes in *. rewrite !map_app in *. rewrite app_length in *. cbn [length map snd agent_set_stake a_stake] in *. rewrite Ed, app_length in N2. cbn in N2.
        destruct (Nat.eqb_spec (S i) (length l + 1)) as [Ei|Ei].
        * assert (i = length l) by lia. subst i. rewrite nth_error_app2 in * by (rewrite map_length; lia). rewrite map_length, Nat.sub_diag in *. cbn in *. injection N1 as <-. reflexivity.
        * rewrite nth_error_app1 in * by (rewrite map_length; lia). assumption.
  Qed.
End Norm.

(** * C27 *)
Open Scope Qc_scope.
(** the agents' stakes add up to 1, and so does the recorded total *)
Theorem C27_total_is_one : forall (g : args QcA) profiles (stakes costs : list Qc) (s0 : sim QcA), init g profiles stakes costs = Ok s0 ->
  w_total (s_w s0) = 1 /\
  (Qc_sum stakes <> 1 - g_inactive g \/ g_inactive g = 0 /\ length stakes = Z.to_nat (s_n s0) -> Qc_sum (agent_stakes (w_agents (s_w s0))) = 1).
Proof.
  intros g profiles stakes costs s0 H. apply init_inv in H as (r0 & s1 & ags & tot & ags' & tot' & _ & _ & _ & Ha & Ht & Hp & Hn & Ea & Et & En & _). rewrite Ea, Et, En. clear Ea Et En.
  unfold pdiv in Ht. destruct (eqb (sub one (g_inactive g)) zero) eqn:E0; [discriminate|]. injection Ht as Ht. rewrite psum_sum in Ht. cbn [div QcA sub one] in Ht.
  cbn [eqb QcA zero sub one] in E0. destruct (Qc_eqb_spec (1 - g_inactive g) 0) as [|F]; [discriminate|].
  assert (Tp : tot <> 0). { cbn [leb QcA zero] in Hp. destruct (Qc_leb_spec tot 0); [discriminate|]. qlra. }
  change (@eqb QcA) with Qc_eqb in Hn. change (@one QcA) with 1 in Hn. destruct (Qc_eqb_spec tot 1) as [E1|E1].
  - destruct Hn as [-> ->]. split; [assumption|]. intros [C|[C1 C2]].
    + exfalso. apply C. rewrite <- (Qcdiv_mul (Qc_sum stakes) (1 - g_inactive g) F). change (Qc_sum stakes / (1 - g_inactive g)) with (Qc_sum stakes / (1 - g_inactive g)). transitivity (tot * (1 - g_inactive g)); [now rewrite <- Ht|]. rewrite E1. apply Qcmult_1_l.
    + destruct (make_agents_stakes _ _ _ _ _ Ha) as [S1 _]. rewrite S1, <- C2, firstn_all. rewrite C1 in Ht. transitivity (Qc_sum stakes / 1); [change (T QcA) with Qc; field; discriminate|]. transitivity tot; [exact Ht | exact E1].
  - destruct (normalize_spec tot ags ags' tot' Tp Hn) as (N1 & N2 & _). now split.
Qed.
(** every agent but the last keeps its proportion of the input distribution; the last one also gets whatever is missing to 1 *)
Theorem C27_proportions : forall (g : args QcA) profiles (stakes costs : list Qc) (s0 : sim QcA) a ag, init g profiles stakes costs = Ok s0 ->
  get (w_agents (s_w s0)) a = Some ag ->
  let tot := Qc_sum stakes / (1 - g_inactive g) in
  exists x, nth_error stakes a = Some x /\ (a < Z.to_nat (s_n s0))%nat /\
    a_stake ag = if Nat.eqb (S a) (Z.to_nat (s_n s0)) && negb (Qc_eqb tot 1) then x / tot + (1 - Qc_sum (firstn (Z.to_nat (s_n s0)) stakes) / tot) else x / tot.
Proof.
  intros g profiles stakes costs s0 a ag H G. apply init_inv in H as (r0 & s1 & ags & tot & ags' & tot' & _ & _ & _ & Ha & Ht & Hp & Hn & Ea & Et & En & _). rewrite En. rewrite Ea in G. clear Ea Et En.
  unfold pdiv in Ht. destruct (eqb (sub one (g_inactive g)) zero) eqn:E0; [discriminate|]. injection Ht as Ht. rewrite psum_sum in Ht. cbn [div QcA sub one] in Ht.
  rewrite Ht. cbn zeta.
  assert (Tp : tot <> 0). { cbn [leb QcA zero] in Hp. destruct (Qc_leb_spec tot 0); [discriminate|]. qlra. }
  destruct (make_agents_stakes _ _ _ _ _ Ha) as [S1 S2].
  assert (R : Forall2 restaked ags ags'). { destruct (eqb tot one) in Hn; [destruct Hn as [-> _]; apply restaked_refl | eapply normalize_restaked; eassumption]. }
  destruct (restaked_get _ _ R a ag G) as (ag0 & x' & G0 & Eag). destruct (make_agents_nth _ _ _ _ _ _ _ Ha G0) as [J1 J2]. exists (a_stake ag0).
  assert (J3 : nth_error stakes a = Some (a_stake ag0)). { destruct (make_agents_spec _ _ _ _ _ Ha) as [_ K2]. destruct (K2 a ag0 G0) as (p & s & c & -> & _ & J & _). exact J. }
  split; [assumption|]. split; [lia|].
  change (@eqb QcA) with Qc_eqb in Hn. change (@one QcA) with 1 in Hn. destruct (Qc_eqb_spec tot 1) as [E1|E1].
  - destruct Hn as [-> ->]. rewrite andb_false_r. rewrite G in G0. injection G0 as <-. rewrite E1. symmetry. transitivity (a_stake ag * 1 / 1); [change (T QcA) with Qc; field; discriminate | change (T QcA) with Qc; field; discriminate].
  - rewrite andb_true_r. destruct (normalize_spec tot ags ags' tot' Tp Hn) as (_ & _ & N3 & N4). specialize (N4 a _ J1). rewrite S1, S2 in N4.
    assert (K : nth_error (agent_stakes ags') a = Some (a_stake ag)).
    { clear - R G Ha J2. destruct (make_agents_spec _ _ _ _ _ Ha) as [K1 _]. rewrite <- (restaked_keys _ _ R) in K1.
      assert (L : forall d : dict (agent QcA), forall b k, keys d = seq b k -> forall a ag, get d a = Some ag -> nth_error (agent_stakes d) (a - b) = Some (a_stake ag)).
      { clear. induction d as [|[i x] d IH]; intros b k E a ag Ga; [discriminate|]. destruct k as [|k]; [discriminate|]. cbn in E. injection E as -> E. cbn in Ga. destruct (Nat.eqb_spec a b) as [->|Ne].
        - injection Ga as ->. now rewrite Nat.sub_diag.
        - assert (Hin : In a (keys d)) by (apply get_Some_key; eauto). unfold keys in Hin. rewrite E in Hin. apply in_seq in Hin. replace (a - b)%nat with (S (a - S b)) by lia. cbn. now apply (IH (S b) k). }
      assert (Q := L _ _ _ K1 a ag G). now rewrite Nat.sub_0_r in Q. }
    rewrite K in N4. injection N4 as ->. reflexivity.
Qed.
(** a total that is not positive is rejected *)
Theorem C27_total_positive : forall (g : args QcA) profiles (stakes costs : list Qc), g_inactive g < 1 -> Qc_sum stakes <= 0 ->
  forall s0, init g profiles stakes costs <> Ok s0.
Proof.
  intros g profiles stakes costs F S s0 H. apply init_inv in H as (r0 & s1 & ags & tot & ags' & tot' & _ & _ & _ & _ & Ht & Hp & _).
  unfold pdiv in Ht. destruct (eqb _ _) in Ht; [discriminate|]. injection Ht as Ht. rewrite psum_sum in Ht. cbn [div QcA sub one] in Ht.
  cbn [leb QcA zero] in Hp. destruct (Qc_leb_spec tot 0) as [|N]; [discriminate|]. apply N. rewrite <- Ht. apply Qcdiv_le; [qlra|]. rewrite Qcmult_0_l. exact S.
Qed.

Lemma Qc_sum_nonneg l : (forall x, In x l -> 0 <= x) -> 0 <= Qc_sum l.
Proof.
  induction l as [|x l IH]; intros H; [apply Qcle_refl|]. change (Qc_sum (x :: l)) with (x + Qc_sum l). assert (0 <= x) by (apply H; now left). assert (0 <= Qc_sum l) by (apply IH; intros; apply H; now right). qlra.
Qed.
(** the stakes agents get from non-negative (positive) input are non-negative (positive) *)
Theorem C27_stakes_nonneg : forall (g : args QcA) profiles (stakes costs : list Qc) (s0 : sim QcA) a ag, init g profiles stakes costs = Ok s0 -> get (w_agents (s_w s0)) a = Some ag ->
  0 <= g_inactive g -> g_inactive g < 1 -> (forall x, In x stakes -> 0 <= x) -> 0 <= a_stake ag /\ (0 < nth a stakes 0 -> 0 < a_stake ag).
Proof.
  intros g profiles stakes costs s0 a ag H G F0 F1 Hx. destruct (C27_proportions _ _ _ _ _ _ _ H G) as (x & J1 & J2 & J3). set (tot := Qc_sum stakes / (1 - g_inactive g)) in *.
  assert (Tp : 0 < tot).
  { destruct (Qclt_le_dec 0 (Qc_sum stakes)) as [L|L]; [apply Qcdiv_pos; [assumption | qlra]|]. exfalso. exact (C27_total_positive _ profiles _ costs F1 L _ H). }
  assert (Sp : 0 < Qc_sum stakes). { destruct (Qclt_le_dec 0 (Qc_sum stakes)) as [L|L]; [assumption|]. exfalso. exact (C27_total_positive _ profiles _ costs F1 L _ H). }
  assert (X0 : 0 <= x) by (apply Hx; eapply nth_error_In; eassumption). assert (Y0 : 0 <= x / tot) by (now apply Qcdiv_nonneg).
  assert (Le : Qc_sum (firstn (Z.to_nat (s_n s0)) stakes) <= Qc_sum stakes).
  { rewrite <- (firstn_skipn (Z.to_nat (s_n s0)) stakes) at 2. rewrite Qc_sum_app. assert (0 <= Qc_sum (skipn (Z.to_nat (s_n s0)) stakes)); [|qlra]. apply Qc_sum_nonneg. intros y Hy. apply Hx.
    rewrite <- (firstn_skipn (Z.to_nat (s_n s0)) stakes). apply in_app_iff. now right. }
  assert (Z0 : Qc_sum (firstn (Z.to_nat (s_n s0)) stakes) / tot <= 1).
  { apply Qcdiv_le; [assumption|]. rewrite Qcmult_1_l. apply Qcle_trans with (Qc_sum stakes); [assumption|]. unfold tot. apply Qcdiv_ge; [qlra|]. qnra. }
  rewrite (nth_error_nth _ _ _ J1). split.
  - rewrite J3. destruct (_ && _); [qlra | assumption].
  - intros Hpos. assert (0 < x / tot) by (now apply Qcdiv_pos). rewrite J3. destruct (_ && _); [qlra | assumption].
Qed.

(** examples are checked by computing booleans *)
Lemma ok_check {X} (r : res X) (c : X -> bool) : match r with Ok x => c x | Err _ => false end = true -> exists x, r = Ok x /\ c x = true.
Proof. destruct r; [eauto | discriminate]. Qed.
Fixpoint Qcl_eqb (l l' : list Qc) : bool := match l, l' with [], [] => true | x :: l, y :: l' => Qc_eqb x y && Qcl_eqb l l' | _, _ => false end.
Lemma Qcl_eqb_eq : forall l l', Qcl_eqb l l' = true -> l = l'.
Proof. induction l as [|x l IH]; intros [|y l']; cbn; try discriminate; [reflexivity|]. intros H. apply andb_prop in H as [H1 H2]. destruct (Qc_eqb_spec x y); [|discriminate]. f_equal; auto. Qed.
Lemma Qc_eqb_eq x y : Qc_eqb x y = true -> x = y.
Proof. now destruct (Qc_eqb_spec x y). Qed.
Lemma Qc_eqb_neq x y : Qc_eqb x y = false -> x <> y.
Proof. now destruct (Qc_eqb_spec x y). Qed.

(** the agents of an abstainers-only simulation, used for small examples *)
Definition flat2 : list Qc := [Q2Qc (1#2); Q2Qc (1#2)].
Definition small_args (k : pv Qc) (f : Qc) (known : bool) : args QcA :=
  mkArgs (A := QcA) (Single 2%Z) k (Single (Q2Qc (3#10))) (Single 0) (Single (Q2Qc (1#1000000))) (Single 100%Z) (Single (Q2Qc (1#2))) (Single Random) (Single true) 0 f known 1.

(** an instance: shares 1/6 and 1/3 and no inactive stake become 1/3 and 2/3 *)
Example C27_instance : exists s0, init (small_args (Single (Q2Qc 2)) 0 false) [Myopic; NonMyopic] [Q2Qc (1#6); Q2Qc (1#3)] [Q2Qc (1#1000); Q2Qc (1#1000)] = Ok s0 /\
  agent_stakes (w_agents (s_w s0)) = [Q2Qc (1#3); Q2Qc (2#3)].
Proof.
  match goal with |- exists s0, ?r = _ /\ _ => destruct (ok_check r (fun s => Qcl_eqb (agent_stakes (w_agents (s_w s))) [Q2Qc (1#3); Q2Qc (2#3)])) as (s0 & H1 & H2); [vm_compute; reflexivity|] end.
  exists s0. split; [assumption | now apply Qcl_eqb_eq].
Qed.

(** * C28 *)
Definition held (s : sim QcA) : Qc := Qc_sum (agent_stakes (w_agents (s_w s))).
(** REFUTED: agents do not hold the fraction 1 - f; the inactive part is given to the last agent *)
Theorem C28_inactive_stake_refuted :
  (forall (g : args QcA) profiles (stakes costs : list Qc) s0, init g profiles stakes costs = Ok s0 -> 0 < g_inactive g -> Qc_sum stakes <> 1 - g_inactive g -> held s0 <> 1 - g_inactive g) /\
  (exists s0, init (small_args (Single (Q2Qc 2)) (Q2Qc (1#5)) false) [Myopic; NonMyopic] flat2 [Q2Qc (1#1000); Q2Qc (1#1000)] = Ok s0 /\ held s0 = 1 /\
     agent_stakes (w_agents (s_w s0)) = [Q2Qc (2#5); Q2Qc (3#5)]).
Proof.
  split.
  - intros g profiles stakes costs s0 H F N. destruct (C27_total_is_one _ _ _ _ _ H) as [_ E]. unfold held. rewrite E by (now left). intros Q. assert (g_inactive g = 0); [|qlra]. qlra.
  - match goal with |- exists s0, ?r = _ /\ _ => destruct (ok_check r (fun s => Qc_eqb (held s) 1 && Qcl_eqb (agent_stakes (w_agents (s_w s))) [Q2Qc (2#5); Q2Qc (3#5)])) as (s0 & H1 & H2); [vm_compute; reflexivity|] end.
    apply andb_prop in H2 as [H2 H3]. exists s0. split; [assumption|]. split; [now apply Qc_eqb_eq | now apply Qcl_eqb_eq].
Qed.
(** what holds: only if the input already adds up to 1 - f (so that nothing is normalised) *)
Theorem C28_inactive_stake_partial : forall (g : args QcA) profiles (stakes costs : list Qc) s0, init g profiles stakes costs = Ok s0 ->
  Qc_sum stakes = 1 - g_inactive g -> length stakes = Z.to_nat (s_n s0) -> held s0 = 1 - g_inactive g.
Proof.
  intros g profiles stakes costs s0 H S L. apply init_inv in H as (r0 & s1 & ags & tot & ags' & tot' & _ & _ & _ & Ha & Ht & Hp & Hn & Ea & Et & En & _). unfold held. rewrite Ea. rewrite En in L. clear Ea Et En.
  unfold pdiv in Ht. destruct (eqb (sub one (g_inactive g)) zero) eqn:E0; [discriminate|]. injection Ht as Ht. rewrite psum_sum in Ht. cbn [div QcA sub one] in Ht.
  cbn [eqb QcA zero sub one] in E0. destruct (Qc_eqb_spec (1 - g_inactive g) 0) as [|F]; [discriminate|].
  assert (E1 : tot = 1). { rewrite <- Ht. transitivity ((1 - g_inactive g) / (1 - g_inactive g)); [now rewrite <- S | exact (Qcmult_inv_r _ F)]. }
  change (@eqb QcA) with Qc_eqb in Hn. change (@one QcA) with 1 in Hn. destruct (Qc_eqb_spec tot 1); [|contradiction]. destruct Hn as [-> _].
  destruct (make_agents_stakes _ _ _ _ _ Ha) as [S1 _]. rewrite S1, <- L, firstn_all. exact S.
Qed.
Example C28_instance : exists s0, init (small_args (Single (Q2Qc 2)) (Q2Qc (1#5)) false) [Myopic; NonMyopic] [Q2Qc (1#5); Q2Qc (3#5)] [Q2Qc (1#1000); Q2Qc (1#1000)] = Ok s0 /\ held s0 = Q2Qc (4#5).
Proof.
  match goal with |- exists s0, ?r = _ /\ _ => destruct (ok_check r (fun s => Qc_eqb (held s) (Q2Qc (4#5)))) as (s0 & H1 & H2); [vm_compute; reflexivity|] end.
  exists s0. split; [assumption | now apply Qc_eqb_eq].
Qed.

(** * C32 *)
Definition first_value {X} (p : pv X) : option X := hd_error (phase_values p).
(** what the settings act on *)
Definition params {A : Arith} (s : sim A) := (w_rss (s_w s), w_rel (s_w s), w_abs (s_w s), w_phi (s_w s), (s_n s, s_maxit s, s_order s, s_graphs s)).
Lemma apply_setting_params {A : Arith} (v : setting A) (s s' : sim A) r rel abs phi n mi o gr : params s = (r, rel, abs, phi, (n, mi, o, gr)) -> apply_setting v s = Ok s' ->
  match v with
  | SetN x => params s' = (r, rel, abs, phi, (x, mi, o, gr))
  | SetK x => exists r', set_k r x = Ok r' /\ params s' = (r', rel, abs, phi, (n, mi, o, gr))
  | SetA0 x => params s' = (set_a0 r x, rel, abs, phi, (n, mi, o, gr))
  | SetRel x => params s' = (r, x, abs, phi, (n, mi, o, gr))
  | SetAbs x => params s' = (r, rel, x, phi, (n, mi, o, gr))
  | SetMaxIter x => params s' = (r, rel, abs, phi, (n, x, o, gr))
  | SetPhi x => params s' = (r, rel, abs, x, (n, mi, o, gr))
  | SetOrder x => params s' = (r, rel, abs, phi, (n, mi, x, gr))
  | SetGraphs x => params s' = (r, rel, abs, phi, (n, mi, o, x))
  end.
Proof.
  unfold params. intros P H. injection P as <- <- <- <- <- <- <- <-. destruct v; cbn [apply_setting] in H; try (injection H as <-; reflexivity).
  apply bind_ok in H as (r' & H1 & H). injection H as <-. exists r'. split; [assumption | reflexivity].
Qed.
(** the parameters of the first phase *)
Lemma fields_values {A : Arith} (g : args A) r0 s1 : foldM set_field (fields g) (blank r0) = Ok s1 ->
  exists n k a0 rel abs mi phi o gr rk, first_value (g_n g) = Some n /\ first_value (g_k g) = Some k /\ first_value (g_a0 g) = Some a0 /\ first_value (g_rel g) = Some rel /\
    first_value (g_abs g) = Some abs /\ first_value (g_maxit g) = Some mi /\ first_value (g_phi g) = Some phi /\ first_value (g_order g) = Some o /\ first_value (g_graphs g) = Some gr /\
    set_k r0 k = Ok rk /\ params s1 = (set_a0 rk a0, rel, abs, phi, (n, mi, o, gr)).
Proof.
  intros Hs. unfold fields in Hs. cbn [foldM] in Hs.
  repeat match type of Hs with (bind _ _ = _) => let s := fresh "t" in let E := fresh "E" in apply bind_ok in Hs as (s & E & Hs) end. injection Hs as <-.
  assert (F : forall X (f : X -> setting A) p s s', set_field s (pv_map f p) = Ok s' -> exists x u, first_value p = Some x /\ apply_setting (f x) s = Ok u /\ params s' = params u).
  { clear. intros X f [x|l] s s' H; cbn [pv_map set_field] in H.
    - exists x, s'. auto.
    - apply bind_ok in H as (v & Hv & H). apply bind_ok in H as (u & Hu & H). injection H as <-. destruct l as [|x l]; [discriminate|]. cbn in Hv. injection Hv as <-. exists x, u. auto. }
  assert (P : exists rel abs phi n mi o gr, params (blank r0) = (r0, rel, abs, phi, (n, mi, o, gr))) by (unfold params; cbn; eauto 10). destruct P as (rel & abs & phi & n & mi & o & gr & P).
  apply F in E as (x & u & J & E & W). eapply apply_setting_params in E; [|exact P]. rewrite <- W in E.
  apply F in E0 as (x0 & u0 & J0 & E0 & W0). eapply apply_setting_params in E0; [|exact E]. rewrite <- W0 in E0. destruct E0 as (rk & Hk & E0).
  apply F in E1 as (x1 & u1 & J1 & E1 & W1). eapply apply_setting_params in E1; [|exact E0]. rewrite <- W1 in E1.
  apply F in E2 as (x2 & u2 & J2 & E2 & W2). eapply apply_setting_params in E2; [|exact E1]. rewrite <- W2 in E2.
  apply F in E3 as (x3 & u3 & J3 & E3 & W3). eapply apply_setting_params in E3; [|exact E2]. rewrite <- W3 in E3.
  apply F in E4 as (x4 & u4 & J4 & E4 & W4). eapply apply_setting_params in E4; [|exact E3]. rewrite <- W4 in E4.
  apply F in E5 as (x5 & u5 & J5 & E5 & W5). eapply apply_setting_params in E5; [|exact E4]. rewrite <- W5 in E5.
  apply F in E6 as (x6 & u6 & J6 & E6 & W6). eapply apply_setting_params in E6; [|exact E5]. rewrite <- W6 in E6.
  apply F in E7 as (x7 & u7 & J7 & E7 & W7). eapply apply_setting_params in E7; [|exact E6]. rewrite <- W7 in E7.
  exists x, x0, x1, x2, x3, x4, x5, x6, x7, rk. repeat (split; [assumption|]). exact E7.
Qed.

Lemma Qc_trunc_ofZ z : Qc_trunc (Qc_ofZ z) = z.
Proof.
  unfold Qc_trunc, Qc_ofZ. cbn [this Q2Qc]. assert (E : Qred (inject_Z z) = inject_Z z).
  { unfold Qred, inject_Z. generalize (Z.ggcd_correct_divisors z 1), (Z.ggcd_gcd z 1), (Z.gcd_1_r z). destruct (Z.ggcd z 1) as [gg [aa bb]]. cbn. intros [H1 H2] H3 H4. rewrite H3, H4 in *. f_equal; [lia|]. destruct bb; cbn in *; lia. }
  rewrite E. cbn. apply Z.quot_1_r.
Qed.
(** after construction with known inactive stake the threshold is (1-f)/k, and k is its inverse, rounded down *)
Theorem C32_known_inactive_first_phase : forall (g : args QcA) profiles (stakes costs : list Qc) s0 k, init g profiles stakes costs = Ok s0 ->
  g_known g = true -> g_inactive g < 1 -> first_value (g_k g) = Some (Qc_ofZ k) ->
  k <> 0%Z /\ r_thr (w_rss (s_w s0)) = (1 - g_inactive g) / Qc_ofZ k /\ r_k (w_rss (s_w s0)) = Qc_trunc (1 / r_thr (w_rss (s_w s0))).
Proof.
  intros g profiles stakes costs s0 k H Hkn F Hk. apply init_inv in H as (r0 & s1 & ags & tot & ags' & tot' & _ & Hf & Hr & _). rewrite Hkn in Hr. destruct Hr as (k' & H1 & H2).
  apply fields_values in Hf as (n & k0 & a0 & rel & abs & mi & phi & o & gr & rk & _ & Jk & _ & _ & _ & _ & _ & _ & _ & Ek & P). rewrite Hk in Jk. injection Jk as <-.
  unfold params in P. injection P as P1 _ _ _ _ _ _ _. unfold set_k in Ek. change (@eqb QcA) with Qc_eqb in Ek. change (@zero QcA) with 0 in Ek. destruct (Qc_eqb_spec (Qc_ofZ k) 0) as [|Nk]; [discriminate|].
  apply bind_ok in Ek as (t & _ & Ek). injection Ek as <-. assert (Kz : r_k (w_rss (s_w s1)) = k) by (rewrite P1; cbn; apply Qc_trunc_ofZ). rewrite Kz in H1.
  assert (Nf : 1 - g_inactive g <> 0) by qlra. change (ofZ (a := QcA) k) with (Qc_ofZ k) in H1. change (sub (a := QcA) one (g_inactive g)) with (1 - g_inactive g) in H1. rewrite pdiv_ok in H1 by assumption. injection H1 as <-.
  unfold set_k in H2. change (@eqb QcA) with Qc_eqb in H2. change (@zero QcA) with 0 in H2. destruct (Qc_eqb_spec (Qc_ofZ k / (1 - g_inactive g)) 0) as [|Nq]; [discriminate|]. rewrite pdiv_ok in H2 by assumption. cbn [bind] in H2. injection H2 as <-.
  cbn [r_thr r_k]. assert (Et : total_R QcA / (Qc_ofZ k / (1 - g_inactive g)) = (1 - g_inactive g) / Qc_ofZ k) by (change (total_R QcA) with 1; now field).
  split; [intros ->; now apply Nk|]. split; [exact Et|]. etransitivity; [|apply (f_equal (fun t => Qc_trunc (1 / t))); symmetry; exact Et]. cbn [trunc QcA]. f_equal. now field.
Qed.
(** without that knowledge nothing is adjusted *)
Theorem C32_unknown_inactive_first_phase : forall (g : args QcA) profiles (stakes costs : list Qc) s0 k, init g profiles stakes costs = Ok s0 ->
  g_known g = false -> first_value (g_k g) = Some (Qc_ofZ k) -> r_thr (w_rss (s_w s0)) = 1 / Qc_ofZ k /\ r_k (w_rss (s_w s0)) = k.
Proof.
  intros g profiles stakes costs s0 k H Hkn Hk. apply init_inv in H as (r0 & s1 & ags & tot & ags' & tot' & _ & Hf & Hr & _). rewrite Hkn in Hr.
  apply fields_values in Hf as (n & k0 & a0 & rel & abs & mi & phi & o & gr & rk & _ & Jk & _ & _ & _ & _ & _ & _ & _ & Ek & P). rewrite Hk in Jk. injection Jk as <-.
  unfold params in P. injection P as P1 _ _ _ _ _ _ _. unfold set_k in Ek. change (@eqb QcA) with Qc_eqb in Ek. change (@zero QcA) with 0 in Ek. destruct (Qc_eqb_spec (Qc_ofZ k) 0) as [|Nk]; [discriminate|].
  rewrite pdiv_ok in Ek by assumption. injection Ek as <-. rewrite Hr, P1. cbn. split; [reflexivity | apply Qc_trunc_ofZ].
Qed.
(** REFUTED for later phases: the value of k listed for a later phase is used as it is *)
Theorem C32_later_phases_refuted :
  let g := small_args (Multi [Q2Qc 2; Q2Qc 3]) (Q2Qc (1#5)) true in
  exists s0 s1, init g [Abstainer; Abstainer] flat2 [0; 0] = Ok s0 /\ r_thr (w_rss (s_w s0)) = Q2Qc (4#10) /\
    sim_step (fun _ l => l) (mkChoices (fun l => l) (fun _ l n => firstn n l)) s0 = Ok s1 /\ s_phase s1 = 1%nat /\
    r_thr (w_rss (s_w s1)) = 1 / Qc_ofZ 3 /\ r_thr (w_rss (s_w s1)) <> (1 - g_inactive g) / Qc_ofZ 3.
Proof.
  cbv zeta.
  match goal with |- exists s0 s1, ?r = _ /\ _ /\ sim_step ?so ?ch _ = _ /\ _ => destruct (ok_check r (fun s => Qc_eqb (r_thr (w_rss (s_w s))) (Q2Qc (4#10)) &&
    match sim_step so ch s with Ok s1 => Nat.eqb (s_phase s1) 1 && Qc_eqb (r_thr (w_rss (s_w s1))) (1 / Qc_ofZ 3) | Err _ => false end)) as (s0 & H1 & H2); [vm_compute; reflexivity|] end.
  apply andb_prop in H2 as [H2 H3]. apply ok_check in H3 as (s1 & H3 & H4). apply andb_prop in H4 as [H4 H5].
  exists s0, s1. split; [assumption|]. split; [now apply Qc_eqb_eq|]. split; [assumption|]. split; [now apply Nat.eqb_eq|]. apply Qc_eqb_eq in H5. split; [assumption|].
  rewrite H5. apply Qc_eqb_neq. vm_compute. reflexivity.
Qed.
Example C32_instance : exists s0 s1, init (small_args (Single (Q2Qc 2)) (Q2Qc (1#5)) true) [Abstainer; Abstainer] flat2 [0; 0] = Ok s0 /\ r_thr (w_rss (s_w s0)) = Q2Qc (2#5) /\
  init (small_args (Single (Q2Qc 2)) (Q2Qc (1#5)) false) [Abstainer; Abstainer] flat2 [0; 0] = Ok s1 /\ r_thr (w_rss (s_w s1)) = Q2Qc (1#2) /\
  first_value (g_k (small_args (Single (Q2Qc 2)) (Q2Qc (1#5)) true)) = Some (Qc_ofZ 2).
Proof.
  destruct (ok_check (init (small_args (Single (Q2Qc 2)) (Q2Qc (1#5)) true) [Abstainer; Abstainer] flat2 [0; 0]) (fun s => Qc_eqb (r_thr (w_rss (s_w s))) (Q2Qc (2#5)))) as (s0 & H1 & H2); [vm_compute; reflexivity|].
  destruct (ok_check (init (small_args (Single (Q2Qc 2)) (Q2Qc (1#5)) false) [Abstainer; Abstainer] flat2 [0; 0]) (fun s => Qc_eqb (r_thr (w_rss (s_w s))) (Q2Qc (1#2)))) as (s1 & H3 & H4); [vm_compute; reflexivity|].
  exists s0, s1. split; [assumption|]. split; [now apply Qc_eqb_eq|]. split; [assumption|]. split; [now apply Qc_eqb_eq | reflexivity].
Qed.
