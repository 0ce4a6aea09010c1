(** C50 (non-myopic stake of a pool) and C51 (which pools an operator keeps). *)
From Coq Require Import ZArith QArith Qcanon List Bool Arith Lia Permutation Sorted.
From Verif Require Import Num Py QcTac Rewards RewardFacts SortedKeyList World Stakeholder Sched Sim Init Reach Spec ListFacts SLFacts Inv Eval Step SimInv PropState PropExact PropInit Demo.
Import ListNotations.
Open Scope nat_scope.

(** * C50 *)
Section NonMyopic.
  Context {A : Arith}.
  Notation num := (T A).
  (** [rk] is a ranking of pools of [w]: sorted, every entry filed under the key its pool has now, no pool twice *)
  Definition ranking_of (w : world A) (rk : sl A) : Prop :=
    StronglySorted (fun x y => key_ltb (fst y) (fst x) = false) rk /\
    (forall k r, In (k, Some r) rk -> exists p, get (w_heap w) r = Some p /\ k = (opp (p_des p), opp (p_pp p), Z.of_nat (p_id p))) /\
    (forall l1 r l2, sl_elems rk = l1 ++ Some r :: l2 -> ~ In (Some r) l1 /\ ~ In (Some r) l2).

  (** a pool that has only pools ranked before it *)
  Theorem C50_top_or_not (O : OrdLaws A) : forall (w : world A) (rk : sl A) (better : list nat) (ps : list (pool A)) r p worse, ranking_of w rk ->
    sl_elems rk = map Some better ++ Some r :: worse -> Forall2 (fun r q => get (w_heap w) r = Some q) better ps -> get (w_heap w) r = Some p ->
    let capacity := fsum (map (fun q => pool_threshold (w_rss w) (p_pledge q)) ps) in
    non_myopic_stake w r rk = Ok (if ltb (add capacity min_stake_unit) (w_total w) then pmax (pool_threshold (w_rss w) (p_pledge p)) (p_stake p) else p_pledge p).
  Proof.
    intros w rk better ps r p worse (S & K & U) E F G cap. unfold non_myopic_stake. unfold deref at 1. rewrite G. cbn [of_option bind].
    assert (In1 : In (Some r) (sl_elems rk)) by (rewrite E; apply in_app_iff; right; now left). apply in_map_iff in In1 as ([k e] & Ee & In1). cbn in Ee. subst e.
    destruct (K k r In1) as (q & Gq & Ek). assert (q = p) as -> by congruence.
    destruct (@sl_index_total A O (pool_key p) k (Some r) rk S In1) as (i & Hi); [subst k; apply (@key_eqb_refl A O)|]. rewrite Hi. cbn [bind].
    assert (Ei : i = length better).
    { apply sl_index_ok in Hi as (e & Hn & He & _). apply (map_nth_error snd) in Hn. rewrite He in Hn. change (map snd rk) with (sl_elems rk) in Hn. destruct (U _ _ _ E) as [U1 U2]. rewrite E in Hn.
      destruct (Nat.lt_trichotomy i (length (map Some better))) as [L|[->|L]]; [| apply map_length |].
      - exfalso. apply U1. rewrite nth_error_app1 in Hn by assumption. eapply nth_error_In; eassumption.
      - exfalso. apply U2. rewrite nth_error_app2 in Hn by lia. destruct (i - length (map Some better)) as [|j] eqn:Ej; [lia|]. cbn in Hn. eapply nth_error_In; eassumption. }
    rewrite E, Ei. rewrite <- (map_length Some better) at 1. rewrite firstn_app, Nat.sub_diag, firstn_all, firstn_O, app_nil_r.
    erewrite (proj2 (mapM_ok _ _ (map (fun q => pool_threshold (w_rss w) (p_pledge q)) ps))); [reflexivity|].
    clear - F. induction F as [|r0 q0 l l' H F IH]; cbn; constructor; [|assumption]. unfold deref. rewrite H. reflexivity.
  Qed.

  (** a pool ranked behind a placeholder cannot be evaluated *)
  Theorem C50_behind_a_placeholder (O : OrdLaws A) : forall (w : world A) (rk : sl A) (better : list nat) r rest worse, ranking_of w rk -> (forall r, In r better -> get (w_heap w) r <> None) ->
    sl_elems rk = map Some better ++ None :: rest ++ Some r :: worse -> non_myopic_stake w r rk = Err AttributeError.
  Proof.
    intros w rk better r rest worse (S & K & U) Live E. set (l1 := map Some better ++ None :: rest) in *.
    assert (E1 : sl_elems rk = l1 ++ Some r :: worse) by (rewrite E; unfold l1; rewrite <- app_assoc; reflexivity).
    assert (In1 : In (Some r) (sl_elems rk)) by (rewrite E1; apply in_app_iff; right; now left). apply in_map_iff in In1 as ([k e] & Ee & In1). cbn in Ee. subst e.
    destruct (K k r In1) as (p & G & Ek). unfold non_myopic_stake. unfold deref at 1. rewrite G. cbn [of_option bind].
    destruct (@sl_index_total A O (pool_key p) k (Some r) rk S In1) as (i & Hi); [subst k; apply (@key_eqb_refl A O)|]. rewrite Hi. cbn [bind].
    assert (Ei : i = length l1).
    { apply sl_index_ok in Hi as (e & Hn & He & _). apply (map_nth_error snd) in Hn. rewrite He in Hn. change (map snd rk) with (sl_elems rk) in Hn. destruct (U _ _ _ E1) as [U1 U2]. rewrite E1 in Hn.
      destruct (Nat.lt_trichotomy i (length l1)) as [L|[->|L]]; [| reflexivity |].
      - exfalso. apply U1. rewrite nth_error_app1 in Hn by assumption. eapply nth_error_In; eassumption.
      - exfalso. apply U2. rewrite nth_error_app2 in Hn by lia. destruct (i - length l1) as [|j] eqn:Ej; [lia|]. cbn in Hn. eapply nth_error_In; eassumption. }
    rewrite E1, Ei, firstn_app, Nat.sub_diag, firstn_all, firstn_O, app_nil_r. unfold l1.
    clear - Live. induction better as [|r0 l IH]; cbn; [reflexivity|]. unfold deref at 1. destruct (get (w_heap w) r0) eqn:E0; [|exfalso; now apply (Live r0 (or_introl eq_refl))]. cbn.
    destruct (mapM _ (map Some l ++ None :: rest)) eqn:M.
    - exfalso. assert (J := IH ltac:(intros; apply Live; now right)). cbn in J. discriminate.
    - assert (J := IH ltac:(intros; apply Live; now right)). cbn in J. exact J.
  Qed.

  (** the model's ranking is such a ranking, in every state of a run *)
  Theorem C50_pool_rankings (O : OrdLaws A) : ltb (zero (a := A)) min_stake_unit = true ->
    forall so g profiles stakes costs (s0 : sim A) w, set_order so -> init g profiles stakes costs = Ok s0 -> one_at_a_time g -> visible so s0 w ->
    ranking_of w (w_rank w).
  Proof.
    intros MP so g profiles stakes costs s0 w SO H1 H2 V. assert (G := plain_visible O MP so SO _ _ _ _ _ _ H1 H2 V). destruct G as [I _ _ _].
    assert (N := Inv_refs_nodup _ _ _ _ _ _ I). destruct (i_rank _ _ _ _ _ _ I) as (S & P & K). split; [exact S|]. split.
    - intros k r J. destruct (K k (Some r) J) as (p & G & E). exists p. split; [exact G|]. now injection E.
    - intros l1 r l2 E. rewrite E in P.
      set (rf := flat_map (fun e : option nat => match e with Some x => [x] | None => [] end)).
      assert (P2 : Permutation (rf (l1 ++ Some r :: l2)) (rf (repeat None (Z.to_nat (r_k (w_rss (s_w s0)) + 1)) ++ map Some (values (w_pools w))))) by (unfold rf; now apply Permutation_flat_map).
      assert (E2 : forall n l, rf (repeat None n ++ map Some l) = l).
      { unfold rf. induction n as [|n IH]; intros l; cbn; [|apply IH]. induction l as [|x l IHl]; cbn; [reflexivity | now rewrite IHl]. }
      rewrite E2 in P2. symmetry in P2. eapply Permutation_NoDup in P2; [|exact N]. unfold rf in P2. rewrite flat_map_app in P2. cbn in P2. apply NoDup_remove_2 in P2.
      assert (J : forall l, In (Some r) l -> In r (rf l)) by (intros l H; unfold rf; apply in_flat_map; exists (Some r); split; [assumption | now left]).
      split; intros H; apply P2, in_app_iff; [left | right]; now apply J.
  Qed.
End NonMyopic.

(** Under a uniform threshold 1/k, with total stake 1, the pools that count as top pools are exactly the k best ranked ones. *)
Theorem C50_exactly_the_k_best : forall (w : world QcA) (rk : sl QcA) (better : list nat) (ps : list (pool QcA)) r p worse k, ranking_of w rk ->
  r_scheme (w_rss w) <> CIP50 -> (1 <= k <= 10 ^ 16)%Z -> r_thr (w_rss w) = (1 / Qc_ofZ k)%Qc -> w_total w = 1%Qc ->
  sl_elems rk = map Some better ++ Some r :: worse -> Forall2 (fun r q => get (w_heap w) r = Some q) better ps -> get (w_heap w) r = Some p ->
  ((Z.of_nat (length better) < k)%Z -> non_myopic_stake w r rk = Ok (Qcmax (1 / Qc_ofZ k) (p_stake p))) /\
  ((k <= Z.of_nat (length better))%Z -> non_myopic_stake w r rk = Ok (p_pledge p)).
Proof.
  intros w rk better ps r p worse k R NC Hk Ht Htot E F G. rewrite (C50_top_or_not QcA_ord w rk better ps r p worse R E F G).
  assert (Th : forall x, pool_threshold (w_rss w) x = (1 / Qc_ofZ k)%Qc) by (intros x; unfold pool_threshold; destruct (r_scheme (w_rss w)); try assumption; congruence).
  rewrite Th, pmax_max, Htot.
  assert (Kp : (0 < Qc_ofZ k)%Qc) by (apply Qc_ofZ_pos; lia).
  assert (Cap : (fsum (a := QcA) (map (fun q : pool QcA => pool_threshold (w_rss w) (p_pledge q)) ps) = Qc_ofZ (Z.of_nat (length better)) * (1 / Qc_ofZ k))%Qc).
  { clear - F Th. cbn [fsum QcA]. induction F as [|x y l l' _ F IH].
    - cbn. change (Qc_ofZ 0) with 0%Qc. now rewrite Qcmult_0_l.
    - cbn [map Qc_sum fold_right length]. unfold Qc_sum in IH. rewrite IH, Th, Nat2Z.inj_succ. unfold Z.succ. rewrite Qc_ofZ_add. change (Qc_ofZ 1) with 1%Qc. change (T QcA) with Qc. ring. }
  rewrite Cap. cbn [ltb add min_stake_unit QcA].
  assert (Ik : (Qc_ofZ k * (1 / Qc_ofZ k) = 1)%Qc) by (field; qlra).
  set (b := (1 / Qc_ofZ k)%Qc) in *. set (n := Qc_ofZ (Z.of_nat (length better))) in *.
  assert (Bp : (0 < b)%Qc) by (apply Qcdiv_pos; [reflexivity | assumption]).
  assert (Big : (Q2Qc (22 # 1000000000000000000) < b)%Qc).
  { assert (Kle : (Qc_ofZ k <= Qc_ofZ (10 ^ 16))%Qc) by (apply Qc_ofZ_le; lia). assert (J : (Q2Qc (22 # 1000000000000000000) * Qc_ofZ (10 ^ 16) < 1)%Qc) by reflexivity.
    destruct (Qclt_le_dec (Q2Qc (22 # 1000000000000000000)) b) as [?|L]; [assumption|]. exfalso.
    assert (Up : (0 < Q2Qc (22 # 1000000000000000000))%Qc) by reflexivity. set (u := Q2Qc (22 # 1000000000000000000)) in *. clearbody u b. set (K := Qc_ofZ k) in *. set (M := Qc_ofZ (10 ^ 16)) in *. clearbody K M.
    assert ((K * b <= K * u)%Qc) by (apply Qcmult_le_l; qlra). assert ((u * K <= u * M)%Qc) by (apply Qcmult_le_l; qlra). qlra. }
  split; intros L.
  - destruct (Qc_ltb_spec (n * b + Q2Qc (22 # 1000000000000000000)) 1) as [_|N]; [reflexivity|]. exfalso. apply N.
    assert (J : (n + 1 <= Qc_ofZ k)%Qc) by (unfold n; change 1%Qc with (Qc_ofZ 1); rewrite <- Qc_ofZ_add; apply Qc_ofZ_le; lia).
    assert (J2 : ((n + 1) * b <= Qc_ofZ k * b)%Qc) by (apply Qcmult_le_r; qlra). rewrite Ik in J2. replace ((n + 1) * b)%Qc with (n * b + b)%Qc in J2 by ring. set (nb := (n * b)%Qc) in *. set (u := Q2Qc (22 # 1000000000000000000)) in *. clearbody u nb b n. qlra.
  - destruct (Qc_ltb_spec (n * b + Q2Qc (22 # 1000000000000000000)) 1) as [N|_]; [|reflexivity]. exfalso.
    assert (J : (Qc_ofZ k <= n)%Qc) by (unfold n; apply Qc_ofZ_le; lia).
    assert ((Qc_ofZ k * b <= n * b)%Qc) by (apply Qcmult_le_r; qlra). assert (Up : (0 < Q2Qc (22 # 1000000000000000000))%Qc) by reflexivity.
    set (u := Q2Qc (22 # 1000000000000000000)) in *. clearbody u b n. qlra.
Qed.

(** * C51 *)
Lemma In_firstn' {X} (x : X) n l : In x (firstn n l) -> In x l.
Proof. intros H. rewrite <- (firstn_skipn n l). apply in_app_iff. now left. Qed.
(** pool [p], registered as [id], comes before pool [q], registered as [id']: by desirability, then potential profit, then stake, then age *)
Definition beats {A : Arith} (id : nat) (p : pool A) (id' : nat) (q : pool A) : Prop :=
  ltb (p_des q) (p_des p) = true \/ eqb (p_des q) (p_des p) = true /\
  (ltb (p_pp q) (p_pp p) = true \/ eqb (p_pp q) (p_pp p) = true /\
   (ltb (p_stake q) (p_stake p) = true \/ eqb (p_stake q) (p_stake p) = true /\ id < id')).

Section Keep.
  Context {A : Arith} (O : OrdLaws A).
  Implicit Types x y : keep_key A.
  Lemma keep_ltb_lex x y : keep_ltb x y = lex_ltb (lex_ltb (lex_ltb (@ltb A) (@ltb A)) (@ltb A)) (fun a b => Nat.ltb b a) x y.
  Proof.
    destruct x as [[[x1 x2] x3] x4], y as [[[y1 y2] y3] y4]. unfold keep_ltb, lex_ltb. cbn [fst snd]. rewrite !(num_eqb A O). unfold sw_eqb. cbv beta. cbn [fst snd].
    destruct (ltb x1 y1) eqn:E1, (ltb y1 x1) eqn:E2, (ltb x2 y2) eqn:E3, (ltb y2 x2) eqn:E4, (ltb x3 y3) eqn:E5, (ltb y3 x3) eqn:E6; cbn; try reflexivity;
      exfalso; match goal with H1 : ltb ?a ?b = true, H2 : ltb ?b ?a = true |- _ => assert (X := sw_asym (sw_num A O) _ _ H1); congruence end.
  Qed.
  Lemma keep_sw : StrictWeak (@keep_ltb A).
  Proof.
    assert (S : StrictWeak (lex_ltb (lex_ltb (lex_ltb (@ltb A) (@ltb A)) (@ltb A)) (fun a b => Nat.ltb b a))).
    { apply lex_sw; [apply lex_sw; [apply lex_sw|]; now apply sw_num | apply sw_flip, sw_natltb]. }
    destruct S as [S1 S2 S3]. constructor; intros; rewrite ?keep_ltb_lex in *; eauto.
  Qed.
  Lemma insert_desc_sorted x (l : list (keep_key A)) : sorted (fun a b => keep_ltb b a) l -> sorted (fun a b => keep_ltb b a) (insert_desc x l).
  Proof.
    assert (S := keep_sw). intros H. induction H as [|y l H IH F]; cbn; [repeat constructor|]. destruct (keep_ltb y x) eqn:E.
    - constructor; [now constructor|]. constructor; [now apply (sw_asym S)|]. rewrite Forall_forall in *. intros z J. specialize (F z J). cbn in F.
      destruct (keep_ltb x z) eqn:E2; [|reflexivity]. exfalso. assert (keep_ltb y z = true) by (eapply (sw_trans S); eassumption). congruence.
    - constructor; [assumption|]. rewrite Forall_forall in *. intros z J. apply (Permutation_in z (insert_desc_perm x l)) in J as [<-|J]; [assumption | now apply F].
  Qed.
  Lemma sort_desc_sorted (l : list (keep_key A)) : sorted (fun a b => keep_ltb b a) (sort_desc l).
  Proof. induction l as [|x l IH]; cbn; [constructor | now apply insert_desc_sorted]. Qed.

  Theorem C51_keeps_the_best : forall so (w : world A) ag st n w' d, set_order so -> a_strategy ag = Some st -> NoDup (keys (s_owned st)) -> (forall id r, get (s_owned st) id = Some r -> get (w_heap w) r <> None) ->
    (forall r p, get (w_heap w) r = Some p -> r < w_next w) -> (0 <= n)%Z -> pools_to_keep so w ag n = Ok (w', d) ->
    length d = Nat.min (Z.to_nat n) (length (s_owned st)) /\ NoDup (keys d) /\
    (forall id r', get d id = Some r' -> exists r p, get (s_owned st) id = Some r /\ get (w_heap w) r = Some p /\ get (w_heap w') r' = Some p /\ get (w_heap w) r' = None) /\
    (forall r p, get (w_heap w) r = Some p -> get (w_heap w') r = Some p) /\
    (forall id r p id' r' q, get d id = Some r -> get (w_heap w') r = Some p -> get (s_owned st) id' = Some r' -> get d id' = None -> get (w_heap w) r' = Some q -> beats id p id' q).
  Proof.
    intros so w ag st n w' d SO Hst Nd Hl Fr Hn H.
    assert (Live : forall id r, get (s_owned st) id = Some r -> r < w_next w).
    { intros id r J. apply Hl in J. destruct (get (w_heap w) r) eqn:E; [|congruence]. eapply Fr; eassumption. }
    destruct (pools_to_keep_spec so SO w ag st n w' d Fr Hst Nd Live H) as (X & _ & Ndd & Inc & Len & Cp). destruct X as (_ & _ & _ & _ & _ & X).
    split; [now apply Len|]. split; [assumption|]. split.
    { intros id r' J. destruct (Cp id r' J) as (r & p & J1 & J2 & J3 & J4). exists r, p. repeat (split; [assumption|]). destruct (get (w_heap w) r') eqn:E; [|reflexivity]. apply Fr in E. lia. }
    split. { intros r p J. rewrite X; [assumption | eapply Fr; eassumption]. }
    intros id r p id' r' q J1 J2 J3 J4 J5.
    unfold pools_to_keep, the_strategy in H. rewrite Hst in H. cbn [of_option bind] in H.
    change (fun (acc : world A * dict nat) (e : nat * nat) => let '(w, d) := acc in let '(id, r) := e in let! wr := deepcopy w r in let '(w', r') := wr in Ok (w', set d id r')) with (@copy_one A) in H.
    destruct (Z.ltb_spec n (Z.of_nat (length (s_owned st)))) as [L|L].
    2: { exfalso. apply get_None in J4. apply J4. apply (NoDup_length_incl Ndd (l' := keys (s_owned st))); [|assumption | apply get_Some_key; eauto].
         unfold keys. rewrite !map_length, (Len Hn), Nat.min_r; lia. }
    apply bind_ok in H as (props & Hp & H). apply bind_ok in H as (todo & Ht & H).
    set (ids := map (fun x : T A * T A * T A * nat => snd x) (nlargest (Z.to_nat n) props)) in *.
    assert (Ep : forall x, In x props <-> exists i r p, get (s_owned st) i = Some r /\ get (w_heap w) r = Some p /\ x = (p_des p, p_pp p, p_stake p, i)).
    { apply mapM_ok in Hp. assert (Hin : forall i r, In (i, r) (s_owned st) <-> get (s_owned st) i = Some r) by (intros; split; [now apply In_get | apply get_In]).
      intros x. assert (K : In x props <-> exists i r p, In (i, r) (s_owned st) /\ get (w_heap w) r = Some p /\ x = (p_des p, p_pp p, p_stake p, i)).
      { clear - Hp. induction Hp as [|[i r] y l l' Hx Hp IH]; cbn [In]; [split; [tauto | intros (? & ? & ? & [] & _)]|].
        apply bind_ok in Hx as (p & Hx & Ey). unfold deref in Hx. apply of_option_ok in Hx. injection Ey as <-. rewrite IH. split.
        - intros [<-|(i' & r0 & p0 & J)]; [exists i, r, p; auto | exists i', r0, p0; tauto].
        - intros (i' & r0 & p0 & [[= -> ->]|J] & J2 & ->); [left; congruence | right; eauto 7]. }
      rewrite K. split; intros (i & r0 & p0 & K1 & K2 & K3); exists i, r0, p0; repeat split; auto; now apply Hin. }
    assert (Et : Forall2 (fun i e => fst e = i /\ get (s_owned st) i = Some (snd e)) (so ids ids) todo).
    { apply mapM_ok in Ht. clear - Ht. revert Ht. generalize (so ids ids) as l0. intros l0 Ht. induction Ht as [|i e l l' Hx Ht IH]; constructor; [|assumption]. apply bind_ok in Hx as (r & Hr & Hx). apply of_option_ok in Hr. injection Hx as <-. now split. }
    assert (Ef : map fst todo = so ids ids). { clear - Et. revert Et. generalize (so ids ids) as l0. intros l0 Et. induction Et as [|i e l l' [E _] _ IH]; [reflexivity|]. cbn. congruence. }
    assert (Eids : Permutation (map (fun x : keep_key A => snd x) props) (keys (s_owned st))).
    { apply mapM_ok in Hp. clear - Hp. induction Hp as [|[i r] x l l' Hx Hp IH]; [reflexivity|]. cbn [map keys]. change (map fst l) with (keys l). apply bind_ok in Hx as (p & _ & Hx). injection Hx as <-. cbn. now constructor. }
    assert (Nids : NoDup ids).
    { assert (P : Permutation (ids ++ map (fun x : keep_key A => snd x) (skipn (Z.to_nat n) (sort_desc props))) (keys (s_owned st))).
      { unfold ids, nlargest. rewrite <- map_app, firstn_skipn, <- Eids. apply Permutation_map, sort_desc_perm. }
      symmetry in P. eapply Permutation_NoDup in P; [|exact Nd]. clear - P. induction ids as [|x l IH]; [constructor|]. cbn in P. apply NoDup_cons_iff in P as [P1 P2]. constructor; [|now apply IH]. intros J. apply P1, in_app_iff. now left. }
    assert (Kd : forall i, In i (keys d) <-> In i ids).
    { eapply (copy_all_spec w) in H as (_ & _ & _ & Ek & _).
      - intros i. rewrite Ek, Ef. cbn. split; apply Permutation_in; [apply SO | symmetry; apply SO].
      - rewrite Ef. eapply Permutation_NoDup; [symmetry; apply SO | exact Nids].
      - intros i _ [].
      - constructor.
      - now apply hext_refl.
      - reflexivity.
      - intros i r0 K. apply (Live i). clear - Et K. revert Et. generalize (so ids ids) as l0. intros l0 Et. induction Et as [|i' e l l' [E1 E2] _ IH]; [destruct K|]. destruct K as [->|K]; [cbn in *; congruence | now apply IH].
      - intros ? ? [=]. }
    assert (K1 : In id ids) by (apply Kd, get_Some_key; eauto). assert (K2 : ~ In id' ids) by (rewrite <- Kd; now apply get_None).
    destruct (Cp id r J1) as (r0 & p0 & C1 & C2 & C3 & _). assert (p0 = p) as -> by congruence.
    apply in_map_iff in K1 as (x & Ex & K1). assert (Sx : In x props) by (apply (Permutation_in x (sort_desc_perm props)); unfold nlargest in K1; now apply In_firstn' in K1).
    assert (x = (p_des p, p_pp p, p_stake p, id)) as ->.
    { apply Ep in Sx as (i & r1 & p1 & S1 & S2 & ->). cbn in Ex. subst i. congruence. }
    set (y := (p_des q, p_pp q, p_stake q, id') : keep_key A).
    assert (Sy : In y (skipn (Z.to_nat n) (sort_desc props))).
    { assert (Iy : In y (sort_desc props)) by (apply (Permutation_in y (Permutation_sym (sort_desc_perm props))), Ep; exists id', r', q; auto).
      rewrite <- (firstn_skipn (Z.to_nat n)) in Iy. apply in_app_iff in Iy as [Iy|Iy]; [|assumption]. exfalso. apply K2. unfold ids, nlargest. apply in_map_iff. exists y. split; [reflexivity | assumption]. }
    assert (Srt := sort_desc_sorted props). rewrite <- (firstn_skipn (Z.to_nat n)) in Srt. apply sorted_app in Srt as (_ & _ & Srt). specialize (Srt _ _ K1 Sy). cbn beta in Srt.
    assert (id <> id') by (intros ->; apply K2; apply in_map_iff; eexists; split; [|exact K1]; reflexivity).
    unfold y, keep_ltb in Srt. unfold beats. rewrite !(num_eqb A O) in *. unfold sw_eqb in *.
    destruct (ltb (p_des p) (p_des q)), (ltb (p_des q) (p_des p)); cbn in Srt |- *; auto; try discriminate. right. split; [reflexivity|].
    destruct (ltb (p_pp p) (p_pp q)), (ltb (p_pp q) (p_pp p)); cbn in Srt |- *; auto; try discriminate. right. split; [reflexivity|].
    destruct (ltb (p_stake p) (p_stake q)), (ltb (p_stake q) (p_stake p)); cbn in Srt |- *; auto; try discriminate. right. split; [reflexivity|]. apply Nat.ltb_ge in Srt. lia.
  Qed.
End Keep.

(** the hypotheses hold for every agent in every state of a run *)
Theorem C51_in_every_state : forall (A : Arith), OrdLaws A -> ltb (zero (a := A)) min_stake_unit = true ->
  forall so g profiles stakes costs (s0 : sim A) w, set_order so -> init g profiles stakes costs = Ok s0 -> one_at_a_time g -> visible so s0 w ->
  forall a ag st n w' d, plays w a ag st -> (0 <= n)%Z -> pools_to_keep so w ag n = Ok (w', d) ->
  length d = Nat.min (Z.to_nat n) (length (s_owned st)) /\
  (forall id r, get d id = Some r -> exists p, operates w a id p /\ get (w_heap w') r = Some p) /\ 
  (forall id p id' q, operates w a id p -> operates w a id' q -> In id (keys d) -> ~ In id' (keys d) -> beats id p id' q).
Proof.
  intros A O MP so g profiles stakes costs s0 w SO H1 H2 V a ag st n w' d P Hn H. assert (G := plain_visible O MP so SO _ _ _ _ _ _ H1 H2 V).
  assert (OF : forall id r, get (s_owned st) id = Some r -> exists p, get (w_heap w) r = Some p).
  { intros id r J. assert (K : ow_of w a id = Some r) by (destruct P as [P1 P2]; unfold ow_of; now rewrite P1, P2). destruct (i_own _ _ _ _ _ _ (g_inv _ _ _ _ _ G) a id r K) as [K1 _].
    destruct (i_reg _ _ _ _ _ _ (g_inv _ _ _ _ _ G) id r K1) as (p & K2 & _). eauto. }
  assert (N : NoDup (keys (s_owned st))) by (destruct (g_ok _ _ _ _ _ G) as [_ K]; destruct P as [P1 P2]; now apply (K a ag P1)).
  destruct (C51_keeps_the_best O so w ag st n w' d SO (proj2 P) N) as (L & _ & C & _ & B); auto.
  { intros id r J. destruct (OF id r J) as (p & E). congruence. }
  { exact (i_fresh _ _ _ _ _ _ (g_inv _ _ _ _ _ G)). }
  split; [exact L|]. split.
  - intros id r J. destruct (C id r J) as (r0 & p & C1 & C2 & C3 & _). exists p. split; [|exact C3]. exists ag, st, r0. auto.
  - intros id p id' q (ag1 & st1 & r & P1 & Q1 & R1) (ag2 & st2 & r2 & P2 & Q2 & R2) J1 J2.
    assert (st1 = st) as -> by (destruct P, P1; congruence). assert (st2 = st) as -> by (destruct P, P2; congruence).
    apply get_Some_key in J1 as (rc & J1). apply get_None in J2. destruct (C id rc J1) as (r0 & p0 & C1 & C2 & C3 & _). assert (p0 = p) as -> by congruence.
    eapply B; eassumption.
Qed.

(** the demo run: two pools of one agent, of which one is kept; a pool ranked second, which counts as a top pool *)
Example C51_instance : exists s0 s ag st w' d, demo_init = Ok s0 /\ steps 4 s0 = Ok s /\ plays (s_w s) 1 ag st /\ length (s_owned st) = 2 /\ pools_to_keep so_id (s_w s) ag 1 = Ok (w', d) /\ length d = 1.
Proof.
  destruct (steps_check demo_init 4 (fun s => agent_is (s_w s) 1 (fun ag st => Nat.eqb (length (s_owned st)) 2 && match pools_to_keep so_id (s_w s) ag 1 with Ok (_, d) => Nat.eqb (length d) 1 | Err _ => false end)))
    as (s0 & s & H0 & H & T); [vm_compute; reflexivity|].
  cbv beta in T. apply agent_is_plays in T as (ag & st & P & T). apply andb_true_iff in T as [T1 T2]. destruct (pools_to_keep so_id (s_w s) ag 1) as [[w' d]|] eqn:E; [|discriminate].
  exists s0, s, ag, st, w', d. apply Nat.eqb_eq in T1, T2. repeat (split; try assumption).
Qed.
Example C50_instance : exists s0 s r p v, demo_init = Ok s0 /\ steps 4 s0 = Ok s /\ nth_error (sl_elems (w_rank (s_w s))) 1 = Some (Some r) /\ get (w_heap (s_w s)) r = Some p /\
  non_myopic_stake (s_w s) r (w_rank (s_w s)) = Ok v /\ v <> p_pledge p.
Proof.
  destruct (steps_check demo_init 4 (fun s => match nth_error (sl_elems (w_rank (s_w s))) 1 with Some (Some r) => match get (w_heap (s_w s)) r with Some p => 
     match non_myopic_stake (s_w s) r (w_rank (s_w s)) with Ok v => negb (Qc_eqb v (p_pledge p)) | Err _ => false end | None => false end | _ => false end)) as (s0 & s & H0 & H & T); [vm_compute; reflexivity|].
  cbv beta in T. destruct (nth_error (sl_elems (w_rank (s_w s))) 1) as [[r|]|] eqn:E1; try discriminate. destruct (get (w_heap (s_w s)) r) as [p|] eqn:E2; [|discriminate].
  destruct (non_myopic_stake (s_w s) r (w_rank (s_w s))) as [v|] eqn:E3; [|discriminate]. exists s0, s, r, p, v. repeat (split; try assumption). intros ->. destruct (Qc_eqb_spec (p_pledge p) (p_pledge p)); [discriminate | congruence].
Qed.
