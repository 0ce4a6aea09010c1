(** Evaluating the options gives the same answer in two states that differ only in discarded pool objects, in the numbers of the next pool object and the next
    pool id, and in the order in which the delegators of a pool are listed. *)
From Coq Require Import ZArith List Bool Arith Lia Permutation.
From Verif Require Import Num Py Rewards SortedKeyList World Stakeholder ListFacts SLFacts.
Import ListNotations.
Open Scope nat_scope.

(** * Computations that go the same way *)
Section Follow.
  Definition follows {X X'} (R : X -> X' -> Prop) (m : res X) (m' : res X') : Prop := forall x, m = Ok x -> exists x', m' = Ok x' /\ R x x'.
  Lemma follows_ok {X X'} (R : X -> X' -> Prop) x x' : R x x' -> follows R (Ok x) (Ok x').
  Proof. intros H y [= <-]. eauto. Qed.
  Lemma follows_bind {X X' Y Y'} (R : X -> X' -> Prop) (Q : Y -> Y' -> Prop) m m' f f' :
    follows R m m' -> (forall x x', m = Ok x -> R x x' -> follows Q (f x) (f' x')) -> follows Q (bind m f) (bind m' f').
  Proof. intros H K y E. apply bind_ok in E as (x & E1 & E2). destruct (H x E1) as (x' & E' & HR). rewrite E'. cbn. exact (K x x' E1 HR y E2). Qed.
  Lemma follows_eq {X} (m m' : res X) : m' = m -> follows eq m m'.
  Proof. intros -> x E. eauto. Qed.
  Lemma follows_weaken {X X'} (R Q : X -> X' -> Prop) m m' : (forall x x', R x x' -> Q x x') -> follows R m m' -> follows Q m m'.
  Proof. intros H F x E. destruct (F x E) as (x' & ? & ?). eauto. Qed.
  Lemma follows_fold {X X' E E'} (R : X -> X' -> Prop) (L : E -> E' -> Prop) (f : X -> E -> res X) (f' : X' -> E' -> res X') l l' a a' :
    Forall2 L l l' -> (forall a a' e e', R a a' -> L e e' -> In e l -> follows R (f a e) (f' a' e')) -> R a a' -> follows R (foldM f l a) (foldM f' l' a').
  Proof.
    intros F. revert a a'. induction F as [|e e' l l' He F IH]; intros a a' H Ha; cbn [foldM]; [now apply follows_ok|].
    eapply follows_bind; [apply H; [assumption.. | now left]|]. intros x x' _ Hx. apply IH; [|assumption]. intros; apply H; [assumption.. | now right].
  Qed.
  Lemma follows_mapM {X X' Y Y'} (R : X -> X' -> Prop) (Q : Y -> Y' -> Prop) f f' l l' :
    Forall2 R l l' -> (forall x x', R x x' -> In x l -> follows Q (f x) (f' x')) -> follows (Forall2 Q) (mapM f l) (mapM f' l').
  Proof.
    induction 1 as [|e e' l l' He F IH]; intros H; cbn [mapM]; [apply follows_ok; constructor|].
    eapply follows_bind; [apply H; [assumption | now left]|]. intros x x' _ Hx. eapply follows_bind; [apply IH; intros; apply H; [assumption | now right]|].
    intros y y' _ Hy. apply follows_ok. now constructor.
  Qed.
  Lemma follows_filterM {X X'} (R : X -> X' -> Prop) f f' l l' :
    Forall2 R l l' -> (forall x x', R x x' -> In x l -> follows eq (f x) (f' x')) -> follows (Forall2 R) (filterM f l) (filterM f' l').
  Proof.
    induction 1 as [|e e' l l' He F IH]; intros H; cbn [filterM]; [apply follows_ok; constructor|].
    eapply follows_bind; [apply H; [assumption | now left]|]. intros b b' _ <-. eapply follows_bind; [apply IH; intros; apply H; [assumption | now right]|].
    intros y y' _ Hy. apply follows_ok. destruct b; [now constructor | assumption].
  Qed.
  Lemma Forall2_refl_on {X} (R : X -> X -> Prop) l : (forall x, In x l -> R x x) -> Forall2 R l l.
  Proof. induction l; intros H; constructor; [apply H; now left | apply IHl; intros; apply H; now right]. Qed.
  Lemma Forall2_eq {X} (l l' : list X) : Forall2 eq l l' -> l' = l.
  Proof. induction 1; congruence. Qed.
  Lemma Forall2_map_r {X Y} (g : X -> Y) (R : X -> Y -> Prop) l : (forall x, In x l -> R x (g x)) -> Forall2 R l (map g l).
  Proof. induction l; intros H; cbn; constructor; [apply H; now left | apply IHl; intros; apply H; now right]. Qed.
  Lemma Forall2_len {X Y} (R : X -> Y -> Prop) l l' : Forall2 R l l' -> length l = length l'.
  Proof. induction 1; cbn; congruence. Qed.
  Lemma follows_py_index {X X'} (R : X -> X' -> Prop) l l' i : Forall2 R l l' -> follows R (py_index l i) (py_index l' i).
  Proof.
    intros F x. unfold py_index. rewrite <- (Forall2_len _ _ _ F). set (j := if (i <? 0)%Z then _ else _). destruct ((0 <=? j) && (j <? Z.of_nat (length l)))%Z; [|discriminate].
    generalize (Z.to_nat j). induction F as [|e e' l l' He F IH]; intros n; [destruct n; discriminate|]. destruct n; cbn; [intros [= <-]; eauto|]. apply IH.
  Qed.
End Follow.

Section Stable.
  Context {A : Arith}.
  Variable so : list nat -> list nat -> list nat.
  Notation num := (T A).
  Implicit Types w : world A. Implicit Types p q : pool A. Implicit Types st : strategy A. Implicit Types ag : agent A.
  (** pool objects below [n0] and ids up to [s0] are old; the second state has used up [dn] more objects and [ds] more ids *)
  Variables (n0 dn s0 ds : nat) (pools0 : dict nat).
  Definition phi (r : nat) : nat := if r <? n0 then r else r + dn.
  Definition psi (i : nat) : nat := if i <=? s0 then i else i + ds.
  Definition zpsi (z : Z) : Z := if (z <=? Z.of_nat s0)%Z then z else (z + Z.of_nat ds)%Z.
  Definition reg (r : nat) : Prop := In r (values pools0).
  Definition live (r : nat) : Prop := reg r \/ n0 <= r.
  Hypothesis reg_old : forall r, reg r -> r < n0.

  Lemma phi_reg r : reg r -> phi r = r.
  Proof. intros H. apply reg_old in H. unfold phi. destruct (Nat.ltb_spec r n0); [reflexivity | lia]. Qed.
  Lemma phi_inj r r' : phi r = phi r' -> r = r'.
  Proof. unfold phi. destruct (Nat.ltb_spec r n0), (Nat.ltb_spec r' n0); lia. Qed.
  Lemma psi_old i : i <= s0 -> psi i = i.
  Proof. intros H. unfold psi. destruct (Nat.leb_spec i s0); [reflexivity | lia]. Qed.
  Lemma psi_inj i j : psi i = psi j -> i = j.
  Proof. unfold psi. destruct (Nat.leb_spec i s0), (Nat.leb_spec j s0); lia. Qed.
  Lemma zpsi_psi i : zpsi (Z.of_nat i) = Z.of_nat (psi i).
  Proof. unfold zpsi, psi. destruct (Z.leb_spec (Z.of_nat i) (Z.of_nat s0)), (Nat.leb_spec i s0); lia. Qed.
  Lemma zpsi_ltb x y : (zpsi x <? zpsi y)%Z = (x <? y)%Z.
  Proof. unfold zpsi. destruct (Z.leb_spec x (Z.of_nat s0)), (Z.leb_spec y (Z.of_nat s0)); apply eq_true_iff_eq; rewrite !Z.ltb_lt; lia. Qed.
  Lemma zpsi_eqb x y : (zpsi x =? zpsi y)%Z = (x =? y)%Z.
  Proof. unfold zpsi. destruct (Z.leb_spec x (Z.of_nat s0)), (Z.leb_spec y (Z.of_nat s0)); apply eq_true_iff_eq; rewrite !Z.eqb_eq; lia. Qed.

  (** ** rankings *)
  Definition mkey (k : key A) : key A := (fst k, zpsi (snd k)).
  Definition em (x : key A * option nat) : key A * option nat := (mkey (fst x), option_map phi (snd x)).
  Lemma mkey_ltb k k' : key_ltb (mkey k) (mkey k') = key_ltb k k'.
  Proof. destruct k as [[a b] z], k' as [[a' b'] z']. cbn. now rewrite zpsi_ltb. Qed.
  Lemma mkey_eqb k k' : key_eqb (mkey k) (mkey k') = key_eqb k k'.
  Proof. destruct k as [[a b] z], k' as [[a' b'] z']. cbn. now rewrite zpsi_eqb. Qed.
  Lemma phi_eqb e e' : elt_eqb (option_map phi e) (option_map phi e') = elt_eqb e e'.
  Proof. destruct e as [a|], e' as [b|]; cbn; try reflexivity. apply eq_true_iff_eq. rewrite !Nat.eqb_eq. split; [apply phi_inj | congruence]. Qed.
  Lemma sl_add_em k v (l : sl A) : sl_add (mkey k) (option_map phi v) (map em l) = map em (sl_add k v l).
  Proof. induction l as [|[k' e] l IH]; [reflexivity|]. cbn [map sl_add em fst snd]. rewrite mkey_ltb. destruct (key_ltb k k'); cbn [map em fst snd]; [reflexivity | now rewrite IH]. Qed.
  Lemma sl_scan_index_em k v (l : sl A) : sl_scan_index (mkey k) (option_map phi v) (map em l) = sl_scan_index k v l.
  Proof. induction l as [|[k' e] l IH]; [reflexivity|]. cbn [map sl_scan_index em fst snd]. rewrite mkey_eqb, phi_eqb, IH. reflexivity. Qed.
  Lemma sl_index_em k v (l : sl A) : sl_index (mkey k) (option_map phi v) (map em l) = sl_index k v l.
  Proof.
    induction l as [|[k' e] l IH]; [reflexivity|]. cbn [map sl_index em fst]. rewrite mkey_ltb, IH. destruct (key_ltb k' k); [reflexivity|].
    apply (sl_scan_index_em k v ((k', e) :: l)).
  Qed.
  Lemma sl_elems_em (l : sl A) : sl_elems (map em l) = map (option_map phi) (sl_elems l).
  Proof. unfold sl_elems. rewrite !map_map. reflexivity. Qed.

  Lemma sl_add_elems k v (l : sl A) x : In x (sl_elems (sl_add k v l)) -> x = v \/ In x (sl_elems l).
  Proof. unfold sl_elems. intros H. apply (Permutation_in _ (Permutation_map snd (sl_add_perm A k v l))) in H as [H|H]; auto. Qed.

  (** ** pools *)
  Record prel (p p' : pool A) : Prop := {
    pr_id : p_id p' = psi (p_id p); pr_cost : p_cost p' = p_cost p; pr_pledge : p_pledge p' = p_pledge p; pr_stake : p_stake p' = p_stake p; pr_owner : p_owner p' = p_owner p;
    pr_private : p_private p' = p_private p; pr_pp : p_pp p' = p_pp p; pr_margin : p_margin p' = p_margin p; pr_des : p_des p' = p_des p;
    pr_del : forall a, get (p_delegators p') a = get (p_delegators p) a; pr_nd : NoDup (keys (p_delegators p)); pr_nd' : NoDup (keys (p_delegators p'))
  }.
  Lemma prel_key p p' : prel p p' -> pool_key p' = mkey (pool_key p).
  Proof. intros [E1 _ _ _ _ _ E2 _ E3]. unfold pool_key, mkey. cbn [fst snd]. now rewrite E1, E2, E3, zpsi_psi. Qed.
  Lemma prel_keym rs p p' : p_id p <= s0 -> prel p p' -> pool_key_myopic rs p' = pool_key_myopic rs p.
  Proof. intros H [E1 E2 E3 E4 _ _ _ E5]. unfold pool_key_myopic. rewrite E1, E2, E3, E4, E5, psi_old by assumption. reflexivity. Qed.
  Lemma prel_update v a p p' : prel p p' -> prel (update_delegation v a p) (update_delegation v a p').
  Proof.
    intros [E1 E2 E3 E4 E5 E6 E7 E8 E9 E10 N N']. unfold update_delegation. rewrite E10, E4. constructor; cbn; try assumption; try reflexivity.
    - destruct (v <? min_stake_unit)%num; intros b; rewrite ?get_pop by (now apply NoDup_set); rewrite !get_set, E10; reflexivity.
    - destruct (v <? min_stake_unit)%num; [apply NoDup_pop|]; now apply NoDup_set.
    - destruct (v <? min_stake_unit)%num; [apply NoDup_pop|]; now apply NoDup_set.
  Qed.
  Lemma prel_profit rs p p' : prel p p' -> follows prel (pool_set_profit rs p) (pool_set_profit rs p').
  Proof.
    intros [E1 E2 E3 E4 E5 E6 E7 E8 E9 E10 N N']. unfold pool_set_profit. rewrite E2, E3. eapply follows_bind; [now apply follows_eq|]. intros pp ? _ <-. apply follows_ok. constructor; cbn; congruence || assumption.
  Qed.
  Lemma prel_margin m p p' : prel p p' -> prel (pool_set_margin m p) (pool_set_margin m p').
  Proof. intros [E1 E2 E3 E4 E5 E6 E7 E8 E9 E10 N N']. unfold pool_set_margin. rewrite E7. constructor; cbn; congruence || assumption. Qed.

  (** ** states *)
  Record wrel w w' : Prop := {
    wr_rss : w_rss w' = w_rss w; wr_rel : w_rel w' = w_rel w; wr_abs : w_abs w' = w_abs w; wr_phi : w_phi w' = w_phi w; wr_simul : w_simul w' = w_simul w; wr_total : w_total w' = w_total w;
    wr_agents : w_agents w' = w_agents w; wr_pools : w_pools w = pools0; wr_pools' : w_pools w' = pools0; wr_rank : w_rank w' = w_rank w; wr_rankm : w_rankm w' = w_rankm w;
    wr_next : w_next w' = w_next w + dn; wr_n0 : n0 <= w_next w; wr_seq : w_idseq w' = w_idseq w + ds; wr_s0 : s0 <= w_idseq w;
    wr_heap : forall r p, live r -> get (w_heap w) r = Some p -> (reg r -> p_id p <= s0) /\ exists p', get (w_heap w') (phi r) = Some p' /\ prel p p';
    wr_em : map em (w_rank w) = w_rank w;
    wr_elems : forall r, In (Some r) (sl_elems (w_rank w)) -> reg r; wr_elemsm : forall r, In (Some r) (sl_elems (w_rankm w)) -> reg r
  }.
  Lemma deref_rel w w' r : wrel w w' -> live r -> follows (fun p p' => prel p p' /\ (reg r -> p_id p <= s0)) (deref w r) (deref w' (phi r)).
  Proof.
    intros W L p E. unfold deref in *. apply of_option_ok in E. destruct (wr_heap _ _ W r p L E) as (H1 & p' & H2 & H3). exists p'. rewrite H2. auto.
  Qed.
  Lemma deref_reg w w' r : wrel w w' -> reg r -> follows (fun p p' => prel p p' /\ p_id p <= s0) (deref w r) (deref w' r).
  Proof. intros W L. assert (H := deref_rel w w' r W (or_introl L)). rewrite (phi_reg r L) in H. eapply follows_weaken; [|exact H]. cbn. tauto. Qed.
  Lemma store_rel w w' r p p' : wrel w w' -> live r -> prel p p' -> (reg r -> p_id p <= s0) -> wrel (store w r p) (store w' (phi r) p').
  Proof.
    intros [] L P H. constructor; cbn; try assumption. intros r1 p1 L1 G. destruct (Nat.eq_dec r r1) as [<-|N].
    - rewrite get_set_eq in *. injection G as <-. eauto.
    - rewrite get_set_ne in * by (intros E; apply N; try assumption; now apply phi_inj). auto.
  Qed.
  Lemma alloc_rel w w' p p' : wrel w w' -> prel p p' -> wrel (fst (alloc w p)) (fst (alloc w' p')) /\ snd (alloc w' p') = phi (snd (alloc w p)) /\ n0 <= snd (alloc w p).
  Proof.
    intros [] P. assert (E : w_next w' = phi (w_next w)) by (unfold phi; destruct (Nat.ltb_spec (w_next w) n0); lia). cbn. split; [|split; [exact E | assumption]].
    constructor; cbn; try assumption; try lia. intros r1 p1 L1 G. rewrite E. destruct (Nat.eq_dec (w_next w) r1) as [<-|N].
    - rewrite get_set_eq in *. injection G as <-. split; [intros R; apply reg_old in R; lia | eauto].
    - rewrite get_set_ne in * by (intros E'; apply N; try assumption; now apply phi_inj). auto.
  Qed.
  Lemma rankm_remove_rel w w' r : wrel w w' -> reg r -> follows (fun v v' => wrel v v') (rankm_remove w r) (rankm_remove w' r).
  Proof.
    intros W R. unfold rankm_remove. eapply follows_bind; [now apply deref_reg|]. intros p p' _ (P & Hid). rewrite (wr_rss _ _ W), (prel_keym _ _ _ Hid P).
    eapply follows_bind; [now apply follows_eq|]. intros k ? _ <-. rewrite (wr_rankm _ _ W). eapply follows_bind; [now apply follows_eq|]. intros l ? El <-. apply follows_ok.
    destruct W. constructor; cbn; try assumption; try reflexivity. intros r1 H1. apply wr_elemsm0. clear -El H1. revert l El H1. unfold sl_elems.
    assert (Sc : forall (l0 l : sl A), sl_scan_remove k (Some r) l0 = Ok l -> In (Some r1) (map snd l) -> In (Some r1) (map snd l0)).
    { induction l0 as [|e l0 IH]; intros l; cbn; [discriminate|]. destruct (key_eqb (fst e) k); cbn; [|discriminate]. destruct (elt_eqb (snd e) (Some r)); [intros [= <-]; auto|].
      intros E J. apply bind_ok in E as (x & E1 & E2). injection E2 as <-. cbn in J. destruct J as [J|J]; [auto|]. right. eapply IH; eassumption. }
    induction (w_rankm w) as [|e l0 IH]; intros l; [discriminate|]. cbn [sl_remove]. destruct (key_ltb (fst e) k); [|apply Sc].
    intros E J. apply bind_ok in E as (x & E1 & E2). injection E2 as <-. cbn in J |- *. destruct J as [J|J]; [auto|]. right. eapply IH; eassumption.
  Qed.
  Lemma rankm_add_rel w w' r : wrel w w' -> reg r -> follows (fun v v' => wrel v v') (rankm_add w r) (rankm_add w' r).
  Proof.
    intros W R. unfold rankm_add. eapply follows_bind; [now apply deref_reg|]. intros p p' _ (P & Hid). rewrite (wr_rss _ _ W), (prel_keym _ _ _ Hid P).
    eapply follows_bind; [now apply follows_eq|]. intros k ? _ <-. rewrite (wr_rankm _ _ W). apply follows_ok. destruct W. constructor; cbn; try assumption; try reflexivity.
    intros r1 H1. assert (H2 : Some r1 = Some r \/ In (Some r1) (sl_elems (w_rankm w))).
    { now apply sl_add_elems in H1. }
    destruct H2 as [[= ->]|H2]; auto.
  Qed.
  Lemma the_pool_rel w w' id : wrel w w' -> follows (fun r r' => r' = r /\ reg r) (the_pool w id) (the_pool w' id).
  Proof.
    intros W r E. unfold the_pool in *. rewrite (wr_pools' _ _ W). rewrite (wr_pools _ _ W) in E. exists r. split; [assumption|]. split; [reflexivity|].
    apply of_option_ok, get_In in E. now apply (in_map snd) in E.
  Qed.
  Lemma touch_rel uid w w' id v : wrel w w' -> follows wrel (touch_delegation uid w id v) (touch_delegation uid w' id v).
  Proof.
    intros W. unfold touch_delegation. eapply follows_bind; [now apply the_pool_rel|]. intros r ? _ [-> R]. eapply follows_bind; [now apply rankm_remove_rel|]. intros w1 w1' _ W1.
    eapply follows_bind; [now apply deref_reg|]. intros p p' _ (P & Hid). apply rankm_add_rel; [|assumption]. rewrite <- (phi_reg r R) at 2. apply store_rel; [assumption | now left | now apply prel_update|]. now intros _.
  Qed.

  (** ** utilities *)
  Lemma non_myopic_rel w w' r (l : sl A) : wrel w w' -> live r -> (forall r', In (Some r') (sl_elems l) -> live r') ->
    follows eq (non_myopic_stake w r l) (non_myopic_stake w' (phi r) (map em l)).
  Proof.
    intros W L Hl. unfold non_myopic_stake. eapply follows_bind; [now apply deref_rel|]. intros p p' _ (P & _). rewrite (prel_key _ _ P). change (Some (phi r)) with (option_map phi (Some r)). rewrite sl_index_em.
    eapply follows_bind; [now apply follows_eq|]. intros rank ? _ <-. rewrite sl_elems_em, firstn_map.
    eapply follows_bind.
    - apply (follows_mapM (fun e e' => e' = option_map phi e) eq); [apply Forall2_map_r; reflexivity|]. intros e e' -> J. destruct e as [r'|]; cbn [option_map]; [|intros x; discriminate].
      assert (L' : live r'). { apply Hl. rewrite <- (firstn_skipn rank). apply in_or_app. now left. }
      eapply follows_bind; [now apply deref_rel|]. intros q q' _ (Q & _). apply follows_ok. now rewrite (wr_rss _ _ W), (pr_pledge _ _ Q).
    - intros sats sats' _ F. apply Forall2_eq in F as ->. apply follows_ok. now rewrite (wr_rss _ _ W), (wr_total _ _ W), (pr_pledge _ _ P), (pr_stake _ _ P).
  Qed.
  Lemma operator_utility_rel w w' s p p' : wrel w w' -> prel p p' -> pool_operator_utility w' s p' = pool_operator_utility w s p.
  Proof. intros W P. unfold pool_operator_utility. now rewrite (wr_rss _ _ W), (pr_pledge _ _ P), (pr_margin _ _ P), (pr_cost _ _ P). Qed.

  Definition dmap (d : dict nat) : dict nat := map (fun e => (psi (fst e), phi (snd e))) d.
  Lemma dmap_set d k v : set (dmap d) (psi k) (phi v) = dmap (set d k v).
  Proof.
    induction d as [|[k' v'] d IH]; [reflexivity|]. cbn [dmap map fst snd set]. change (map (fun e => (psi (fst e), phi (snd e))) d) with (dmap d). rewrite IH.
    destruct (Nat.eqb_spec k k') as [->|N]; [now rewrite Nat.eqb_refl|]. destruct (Nat.eqb_spec (psi k) (psi k')) as [E|_]; [apply psi_inj in E; contradiction | reflexivity].
  Qed.
  Lemma dmap_values d : values (dmap d) = map phi (values d).
  Proof. unfold values, dmap. rewrite !map_map. reflexivity. Qed.
  Definition lives (d : dict nat) : Prop := forall id r, In (id, r) d -> live r.
  Lemma lives_values d r : lives d -> In r (values d) -> live r.
  Proof. intros H J. apply in_map_iff in J as ([id r'] & E & J). cbn in E. subst. eauto. Qed.
  Lemma lives_set d k v : lives d -> live v -> lives (set d k v).
  Proof.
    intros H Hv id r. induction d as [|[k' v'] d IH]; cbn.
    - intros [[= <- <-]|[]]. assumption.
    - destruct (Nat.eqb_spec k k'); cbn; intros [E|J]; [injection E as <- <-; assumption | apply (H id r); now right | injection E as <- <-; apply (H k' v'); now left | apply IH; [|assumption]; intros id' r' J'; apply (H id' r'); now right].
  Qed.
  Record strel st st' : Prop := { sr_alloc : s_alloc st' = s_alloc st; sr_owned : s_owned st' = dmap (s_owned st); sr_live : lives (s_owned st) }.

  Lemma map_em_app k v (l : sl A) l' : l' = map em l -> sl_add (mkey k) (option_map phi v) l' = map em (sl_add k v l).
  Proof. intros ->. apply sl_add_em. Qed.
  Lemma op_utility_rel w w' ag st st' : wrel w w' -> strel st st' -> follows eq (op_utility_strategy w ag st) (op_utility_strategy w' ag st').
  Proof.
    intros W [Ea Eo Lv]. unfold op_utility_strategy. rewrite Eo, dmap_values, (wr_rank _ _ W). destruct (a_profile ag).
    - eapply follows_bind.
      { apply (follows_filterM (fun e e' => e' = option_map phi e /\ forall r, e = Some r -> live r)).
        - apply Forall2_refl_on. intros e J. destruct e as [r|]; cbn; [|split; congruence]. assert (R : reg r) by (now apply (wr_elems _ _ W)). rewrite phi_reg by assumption. split; [reflexivity|]. intros r' [= <-]. now left.
        - intros e e' [-> He] _. destruct e as [r|]; cbn [option_map]; [|now apply follows_ok]. eapply follows_bind; [apply deref_rel; auto|]. intros p p' _ (P & _). apply follows_ok. now rewrite (pr_owner _ _ P). }
      intros others others' _ Fo.
      set (add_pool := fun (l : sl A) e => match e with None => Ok l | Some r => let! p := deref w r in Ok (sl_add (pool_key p) (Some r) l) end).
      set (add_pool' := fun (l : sl A) e => match e with None => Ok l | Some r => let! p := deref w' r in Ok (sl_add (pool_key p) (Some r) l) end).
      set (RL := fun (l l' : sl A) => l' = map em l /\ forall r, In (Some r) (sl_elems l) -> live r).
      assert (Add : forall l l' e e', RL l l' -> e' = option_map phi e /\ (forall r, e = Some r -> live r) -> follows RL (add_pool l e) (add_pool' l' e')).
      { intros l l' e e' [-> Hl] [-> He]. destruct e as [r|]; cbn [option_map add_pool add_pool']; [|apply follows_ok; now split]. eapply follows_bind; [apply deref_rel; auto|]. intros p p' _ (P & _). apply follows_ok.
        rewrite (prel_key _ _ P). change (Some (phi r)) with (option_map phi (Some r)). rewrite sl_add_em. split; [reflexivity|].
        intros r1 H1. assert (H2 : Some r1 = Some r \/ In (Some r1) (sl_elems l)).
        { now apply sl_add_elems in H1. }
        destruct H2 as [[= ->]|H2]; auto. }
      eapply follows_bind; [apply (follows_fold RL (fun e e' => e' = option_map phi e /\ forall r, e = Some r -> live r) add_pool add_pool' _ _ [] []); [exact Fo | intros; now apply Add | split; [reflexivity | intros r []]]|].
      intros t0 t0' _ R0. eapply follows_bind.
      { apply (follows_fold RL (fun e e' => e' = option_map phi e /\ forall r, e = Some r -> live r) add_pool add_pool'); [|intros; now apply Add | exact R0].
        rewrite map_map. clear -Lv. assert (H : forall r, In r (values (s_owned st)) -> live r) by (intros; now apply (lives_values (s_owned st))). induction (values (s_owned st)) as [|r l IH]; cbn; constructor.
        - split; [reflexivity|]. intros r' [= <-]. apply H. now left.
        - apply IH. intros; apply H; now right. }
      intros t t' _ [-> Ht]. apply (follows_fold eq (fun r r' => r' = phi r)); [apply Forall2_map_r; reflexivity| |reflexivity].
      intros u ? r ? <- -> J. assert (L : live r) by (now apply (lives_values (s_owned st))). eapply follows_bind; [now apply deref_rel|]. intros p p' _ (P & _).
      eapply follows_bind; [now apply non_myopic_rel|]. intros s ? _ <-. rewrite (operator_utility_rel w w' _ _ _ W P). now apply follows_eq.
    - apply (follows_fold eq (fun r r' => r' = phi r)); [apply Forall2_map_r; reflexivity| |reflexivity].
      intros u ? r ? <- -> J. assert (L : live r) by (now apply (lives_values (s_owned st))). eapply follows_bind; [now apply deref_rel|]. intros p p' _ (P & _).
      rewrite (operator_utility_rel w w' _ _ _ W P), (pr_stake _ _ P). now apply follows_eq.
    - intros x; discriminate.
  Qed.

  Lemma del_utility_rel w w' ag r a : wrel w w' -> reg r -> follows eq (del_utility_pool w ag r a) (del_utility_pool w' ag r a).
  Proof.
    intros W R. unfold del_utility_pool. destruct (a_profile ag) eqn:Ep; [| |intros x; discriminate].
    - eapply follows_bind; [now apply follows_eq|]. intros st ? _ <-. eapply follows_bind; [now apply deref_reg|]. intros p p' _ (P & Hid). rewrite (pr_id _ _ P), (psi_old _ Hid), (pr_stake _ _ P).
      eapply follows_bind with (R := eq).
      + eapply follows_bind; [|intros s ? _ <-; now apply follows_eq]. assert (N := non_myopic_rel w w' r (w_rank w) W (or_introl R)). rewrite (phi_reg r R), (wr_em _ _ W) in N. rewrite (wr_rank _ _ W). apply N. intros r' J. left. now apply (wr_elems _ _ W).
      + intros ps ? _ <-. rewrite (wr_rss _ _ W), (pr_pledge _ _ P), (pr_margin _ _ P), (pr_cost _ _ P). now apply follows_eq.
    - eapply follows_bind; [now apply follows_eq|]. intros st ? _ <-. eapply follows_bind; [now apply deref_reg|]. intros p p' _ (P & Hid). rewrite (pr_id _ _ P), (psi_old _ Hid), (pr_stake _ _ P). cbn [bind].
      rewrite (wr_rss _ _ W), (pr_pledge _ _ P), (pr_margin _ _ P), (pr_cost _ _ P). now apply follows_eq.
  Qed.
  (** the agent's present strategy only mentions old pools *)
  Definition settled ag : Prop := forall st, a_strategy ag = Some st -> forall id r, In (id, r) (s_owned st) -> reg r /\ id <= s0.
  Lemma settled_strel ag st : settled ag -> a_strategy ag = Some st -> strel st st.
  Proof.
    intros H E. split; [reflexivity| |].
    - specialize (H st E). induction (s_owned st) as [|[id r] d IH]; [reflexivity|]. cbn. destruct (H id r) as [H1 H2]; [now left|]. rewrite phi_reg, psi_old by assumption. f_equal. apply IH. intros; apply H; now right.
    - intros id r J. left. eapply H; eassumption.
  Qed.
  Lemma settled_values ag st r : settled ag -> a_strategy ag = Some st -> In r (values (s_owned st)) -> reg r.
  Proof. intros H E J. apply in_map_iff in J as ([id r'] & E' & J). cbn in E'. subst. eapply H; eassumption. Qed.

  Lemma current_utility_rel w w' ag : wrel w w' -> settled ag -> follows eq (current_utility w ag) (current_utility w' ag).
  Proof.
    intros W Hs. unfold current_utility. eapply follows_bind; [now apply follows_eq|]. intros st ? E <-. unfold the_strategy in E. apply of_option_ok in E. eapply follows_bind.
    - apply (follows_fold eq eq); [apply Forall2_refl_on; reflexivity| |reflexivity]. intros u ? r ? <- <- J. eapply follows_bind; [apply deref_reg; [assumption | eapply settled_values; eassumption]|]. intros p p' _ (P & _).
      rewrite (operator_utility_rel w w' _ _ _ W P), (pr_stake _ _ P). now apply follows_eq.
    - intros u ? _ <-. apply (follows_fold eq eq); [apply Forall2_refl_on; reflexivity| |reflexivity]. intros v ? [id a] ? <- <- J. eapply follows_bind; [now apply the_pool_rel|]. intros r ? _ [-> R].
      eapply follows_bind; [now apply deref_reg|]. intros p p' _ (P & _). rewrite (wr_rss _ _ W), (pr_stake _ _ P), (pr_pledge _ _ P), (pr_margin _ _ P), (pr_cost _ _ P). now apply follows_eq.
  Qed.
  Lemma expected_utility_rel w w' ag st st' : wrel w w' -> strel st st' -> follows eq (expected_utility w ag st) (expected_utility w' ag st').
  Proof.
    intros W S. unfold expected_utility. eapply follows_bind with (R := eq).
    - rewrite (sr_owned _ _ S). destruct (s_owned st) eqn:E; cbn [dmap map]; [now apply follows_eq|]. eapply follows_bind; [now apply op_utility_rel|]. intros x ? _ <-. now apply follows_eq.
    - intros u ? _ <-. rewrite (sr_alloc _ _ S). apply (follows_fold eq eq); [apply Forall2_refl_on; reflexivity| |reflexivity]. intros v ? [id a] ? <- <- J. rewrite (wr_pools _ _ W), (wr_pools' _ _ W).
      destruct (get pools0 id) as [r|] eqn:E; [|now apply follows_ok]. assert (R : reg r) by (apply get_In in E; now apply (in_map snd) in E). eapply follows_bind; [now apply del_utility_rel|]. intros du ? _ <-. now apply follows_ok.
  Qed.

  (** ** searching *)
  Lemma rankings_rel w w' ag : wrel w w' -> rankings w' ag = rankings w ag.
  Proof. intros W. unfold rankings. now rewrite (wr_rank _ _ W), (wr_rankm _ _ W). Qed.
  Lemma rankings_elems w w' ag rk r : wrel w w' -> rankings w ag = Ok rk -> In (Some r) (sl_elems rk) -> reg r.
  Proof. intros W. unfold rankings. destruct (a_profile ag); intros [= <-]; [apply (wr_elems _ _ W) | apply (wr_elemsm _ _ W)]. Qed.
  Lemma agent_pledge_rel w w' ag n : wrel w w' -> agent_pledge_per_pool w' ag n = agent_pledge_per_pool w ag n.
  Proof. intros W. unfold agent_pledge_per_pool. now rewrite (wr_rss _ _ W). Qed.
  Lemma agent_cost_rel w w' ag n : wrel w w' -> agent_cost_per_pool w' ag n = agent_cost_per_pool w ag n.
  Proof. intros W. unfold agent_cost_per_pool. now rewrite (wr_phi _ _ W). Qed.
  Lemma fixed_rel w w' ag : wrel w w' -> follows (fun l l' => l' = l /\ forall r, In (Some r) l -> reg r) (fixed_pools_ranked w ag) (fixed_pools_ranked w' ag).
  Proof.
    intros W. unfold fixed_pools_ranked. eapply follows_bind; [apply follows_eq; now apply rankings_rel|]. intros rk ? Er <-.
    eapply follows_weaken; [|apply (follows_filterM (fun e e' => e' = e /\ forall r, e = Some r -> reg r))].
    - intros l l' F. assert (E : l' = l) by (clear -F; induction F as [|? ? ? ? [? _]]; congruence). split; [assumption|]. clear E. intros r J. induction F as [|e e' l l' [_ He] F IH]; [destruct J|]. destruct J as [->|J]; auto.
    - apply Forall2_refl_on. intros e J. split; [reflexivity|]. intros r ->. eapply rankings_elems; eassumption.
    - intros e ? [-> He] _. destruct e as [r|]; [|now apply follows_ok]. eapply follows_bind; [apply deref_reg; auto|]. intros p p' _ (P & _). apply follows_ok. now rewrite (pr_owner _ _ P).
  Qed.
  Lemma py_index_In {X} (l : list X) i x : py_index l i = Ok x -> In x l.
  Proof. unfold py_index. destruct (_ && _)%bool; [|discriminate]. intros E. apply of_option_ok, nth_error_In in E. assumption. Qed.
  Lemma margins_rel w w' ag n : wrel w w' -> settled ag -> follows eq (margins_and_utility w ag n) (margins_and_utility w' ag n).
  Proof.
    intros W Hs. unfold margins_and_utility. rewrite (agent_pledge_rel w w' ag n W), (agent_cost_rel w w' ag n W), (wr_rss _ _ W). destruct (a_profile ag) eqn:Ep; [| |intros x; discriminate].
    - eapply follows_bind; [now apply follows_eq|]. intros cost ? _ <-. eapply follows_bind; [now apply follows_eq|]. intros pledge ? _ <-. eapply follows_bind; [now apply follows_eq|]. intros pp ? _ <-.
      eapply follows_bind; [now apply fixed_rel|]. intros fixed ? _ [-> Hf]. apply (follows_fold eq eq); [apply Forall2_refl_on; reflexivity| |reflexivity]. intros [ms u] ? t ? <- <- J.
      eapply follows_bind; [now apply follows_eq|]. intros target ? Et <-. eapply follows_bind with (R := eq).
      + destruct target as [r|]; [|now apply follows_ok]. eapply follows_bind; [apply deref_reg; [assumption | apply Hf; eapply py_index_In; eassumption]|]. intros p p' _ (P & _). apply follows_ok. now rewrite (pr_des _ _ P), (pr_pp _ _ P).
      + intros dp ? _ <-. now apply follows_eq.
    - eapply follows_bind; [now apply follows_eq|]. intros cost ? _ <-. eapply follows_bind; [now apply follows_eq|]. intros pledge ? _ <-. eapply follows_bind; [now apply follows_eq|]. intros st ? Est <-.
      unfold the_strategy in Est. apply of_option_ok in Est.
      eapply follows_bind; [apply (follows_mapM eq (fun p p' => prel p p')); [apply Forall2_refl_on; reflexivity|]|].
      { intros r ? <- J. eapply follows_weaken; [|apply deref_reg; [assumption | eapply settled_values; eassumption]]. cbn. tauto. }
      intros owned owned' _ Fo. assert (Em : map p_stake owned' = map p_stake owned) by (clear -Fo; induction Fo as [|? ? ? ? P]; cbn; [reflexivity|]; rewrite (pr_stake _ _ P); congruence). rewrite Em.
      eapply follows_bind; [now apply follows_eq|]. intros es ? _ <-. eapply follows_bind; [now apply follows_eq|]. intros profit ? _ <-.
      eapply follows_bind; [now apply fixed_rel|]. intros fixed ? _ [-> Hf]. apply (follows_fold eq eq); [apply Forall2_refl_on; reflexivity| |reflexivity]. intros [ms u] ? t ? <- <- J.
      eapply follows_bind; [now apply follows_eq|]. intros target ? Et <-. eapply follows_bind with (R := eq).
      + destruct target as [r|]; [|now apply follows_ok]. eapply follows_bind; [apply deref_reg; [assumption | apply Hf; eapply py_index_In; eassumption]|]. intros p p' _ (P & _). rewrite (pr_stake _ _ P), (pr_pledge _ _ P), (pr_cost _ _ P), (pr_margin _ _ P).
        now apply follows_eq.
      + intros des ? _ <-. now apply follows_eq.
  Qed.
  Lemma search_rel {X} (f f' : Z -> res (X * num)) fuel : (forall t, follows eq (f t) (f' t)) -> forall a b, follows eq (search f fuel a b) (search f' fuel a b).
  Proof.
    intros H. induction fuel as [|fuel IH]; intros a b; cbn [search]; [intros x; discriminate|]. eapply follows_bind; [apply H|]. intros xu ? _ <-.
    assert (Plus : follows eq (if (((a + b) / 2) <? b)%Z then let! xp := f ((a + b) / 2 + 1)%Z in if (snd xp >? snd xu)%num then search f fuel ((a + b) / 2 + 1)%Z b else Ok (((a + b) / 2)%Z, fst xu) else Ok (((a + b) / 2)%Z, fst xu))
                              (if (((a + b) / 2) <? b)%Z then let! xp := f' ((a + b) / 2 + 1)%Z in if (snd xp >? snd xu)%num then search f' fuel ((a + b) / 2 + 1)%Z b else Ok (((a + b) / 2)%Z, fst xu) else Ok (((a + b) / 2)%Z, fst xu))).
    { destruct (_ <? _)%Z; [|now apply follows_ok]. eapply follows_bind; [apply H|]. intros xp ? _ <-. destruct (_ >? _)%num; [apply IH | now apply follows_ok]. }
    destruct (a <? _)%Z; [|exact Plus]. eapply follows_bind; [apply H|]. intros xm ? _ <-. destruct (_ >? _)%num; [apply IH | exact Plus].
  Qed.

  Definition kept (x x' : world A * dict nat) : Prop := wrel (fst x) (fst x') /\ snd x' = dmap (snd x) /\ lives (snd x).
  Lemma pools_to_keep_rel w w' ag n : wrel w w' -> settled ag -> follows kept (pools_to_keep so w ag n) (pools_to_keep so w' ag n).
  Proof.
    intros W Hs. unfold pools_to_keep. eapply follows_bind; [now apply follows_eq|]. intros st ? Est <-. unfold the_strategy in Est. apply of_option_ok in Est. specialize (Hs st Est).
    set (cp := fun acc e => let '(w, d) := acc in let '(id, r) := e in let! wr := deepcopy w r in let '(w', r') := wr in Ok (w', set d id r')).
    assert (Copy : forall l, (forall id r, In (id, r) l -> reg r /\ id <= s0) -> follows kept (foldM cp l (w, [])) (foldM cp l (w', []))).
    { intros l Hl. apply (follows_fold kept eq); [apply Forall2_refl_on; reflexivity| |split; [assumption | split; [reflexivity | intros id r []]]].
      intros [v d] [v' d'] [id r] ? (V1 & V2 & V3) <- J. cbn [fst snd] in V1, V2, V3. subst d'. destruct (Hl id r J) as [R Hid]. cbn [cp]. unfold deepcopy.
      eapply follows_bind with (R := fun x x' => wrel (fst x) (fst x') /\ snd x' = phi (snd x) /\ n0 <= snd x).
      - eapply follows_bind; [now apply deref_reg|]. intros p p' _ (P & _). apply follows_ok. now apply alloc_rel.
      - intros [u r1] [u' r1'] _ (U1 & U2 & U3). cbn [fst snd] in U1, U2, U3. subst r1'. apply follows_ok. split; [assumption|]. cbn [fst snd]. rewrite <- (psi_old id Hid) at 1. rewrite dmap_set. split; [reflexivity|]. apply lives_set; [assumption | now right]. }
    destruct (n <? _)%Z; [|now apply Copy]. eapply follows_bind with (R := eq).
    - eapply follows_weaken; [intros l l' F; symmetry; exact (Forall2_eq l l' F)|]. apply (follows_mapM eq eq); [apply Forall2_refl_on; reflexivity|]. intros [id r] ? <- J.
      eapply follows_bind; [apply deref_reg; [assumption | now apply (Hs id)]|]. intros p p' _ (P & _). apply follows_ok. now rewrite (pr_des _ _ P), (pr_pp _ _ P), (pr_stake _ _ P).
    - intros props ? _ <-. eapply follows_bind; [now apply follows_eq|]. intros todo ? Et <-. apply Copy. intros id r J.
      apply Hs. clear Copy. revert todo Et J. generalize (so (map (fun x => snd x) (nlargest (Z.to_nat n) props)) (map (fun x => snd x) (nlargest (Z.to_nat n) props))).
      induction l as [|i l IH]; intros todo Et J; cbn in Et; [injection Et as <-; destruct J|]. apply bind_ok in Et as ([i1 r1] & E1 & Et). apply bind_ok in E1 as (r2 & E1 & E2). injection E2 as <- <-. apply bind_ok in Et as (ys & E3 & E4). injection E4 as <-.
      destruct J as [[= <- <-]|J]; [|eapply IH; eassumption]. apply of_option_ok in E1. now apply get_In.
  Qed.

  Lemma calculate_margin_rel w w' ag p p' : wrel w w' -> prel p p' -> follows eq (calculate_margin w ag p) (calculate_margin w' ag p').
  Proof.
    intros W P. unfold calculate_margin. rewrite (pr_private _ _ P), (pr_pp _ _ P), (rankings_rel w w' ag W), (wr_rss _ _ W). destruct (p_private p); [now apply follows_eq|].
    eapply follows_bind; [now apply follows_eq|]. intros rk ? Er <-. eapply follows_bind; [now apply follows_eq|]. intros ref ? Ei <-. eapply follows_bind with (R := eq); [|intros pp ? _ <-; now apply follows_eq].
    destruct ref as [r|]; [|now apply follows_ok]. eapply follows_bind; [apply deref_reg; [assumption | eapply rankings_elems; [eassumption.. | eapply py_index_In; eassumption]]|]. intros q q' _ (Q & _). apply follows_ok. now rewrite (pr_pp _ _ Q).
  Qed.
  Lemma margin_at_rel w w' ag ms i p p' : wrel w w' -> prel p p' -> follows eq (margin_at w ag ms i p) (margin_at w' ag ms i p').
  Proof. intros W P. unfold margin_at. destruct (nth_error ms i); [now apply follows_ok | now apply calculate_margin_rel]. Qed.
  Lemma adjust_rel w w' ag pledge cost ms i p p' : wrel w w' -> prel p p' -> follows (fun q q' => prel q q' /\ p_id q = p_id p) (adjust_pool w ag pledge cost ms i p) (adjust_pool w' ag pledge cost ms i p').
  Proof.
    intros W P. unfold adjust_pool. rewrite (wr_rss _ _ W). eapply follows_bind; [apply prel_profit|].
    - destruct P as [E1 E2 E3 E4 E5 E6 E7 E8 E9 E10 N N']. constructor; cbn; try assumption; try reflexivity. now rewrite E3, E4.
    - intros p2 p2' E2 P2. eapply follows_bind; [now apply margin_at_rel|]. intros m ? _ <-. apply follows_ok. split; [now apply prel_margin|]. unfold pool_set_profit in E2. apply bind_ok in E2 as (pp & _ & E2). injection E2 as <-. reflexivity.
  Qed.
  Lemma draft_rel w w' ag pledge cost ms i id : wrel w w' -> follows prel (draft_pool w ag pledge cost ms i id) (draft_pool w' ag pledge cost ms i (psi id)).
  Proof.
    intros W. unfold draft_pool. rewrite (wr_rss _ _ W). eapply follows_bind with (R := prel).
    - unfold new_pool. eapply follows_bind; [now apply follows_eq|]. intros pp ? _ <-. apply follows_ok. constructor; cbn; try reflexivity; constructor.
    - intros p p' _ P. eapply follows_bind; [now apply margin_at_rel|]. intros m ? _ <-. apply follows_ok. now apply prel_margin.
  Qed.

  (** ** delegating *)
  Definition dsame (p p' : pool A) : Prop := p_id p' = p_id p /\ p_pledge p' = p_pledge p /\ p_stake p' = p_stake p.
  Lemma greedy_rel rs l l' : Forall2 dsame l l' -> forall stake d b, greedy rs l' stake d b = greedy rs l stake d b.
  Proof.
    induction 1 as [|p p' l l' (E1 & E2 & E3) F IH]; intros stake d b; cbn [greedy]; [reflexivity|]. rewrite E1, E2, E3. destruct (_ <? _)%num; [apply IH|]. destruct (_ <? _)%num; [reflexivity | apply IH].
  Qed.
  Definition given {X} (x x' : world A * X) : Prop := wrel (fst x) (fst x') /\ snd x' = snd x.
  Lemma stake_allocations_rel w w' ag stake : wrel w w' -> follows given (stake_allocations w ag stake) (stake_allocations w' ag stake).
  Proof.
    intros W. unfold stake_allocations. rewrite (rankings_rel w w' ag W). eapply follows_bind; [now apply follows_eq|]. intros rk ? Er <-.
    eapply follows_bind.
    { apply (follows_filterM (fun e e' => e' = e /\ forall r, e = Some r -> reg r)).
      - apply Forall2_refl_on. intros e J. split; [reflexivity|]. intros r ->. eapply rankings_elems; eassumption.
      - intros e ? [-> He] _. destruct e as [r|]; [|now apply follows_ok]. eapply follows_bind; [apply deref_reg; auto|]. intros p p' _ (P & _). apply follows_ok. now rewrite (pr_owner _ _ P), (pr_private _ _ P). }
    intros el el' _ F. destruct F as [|e e' l l' He F]; [apply follows_ok; now split|]. assert (F' := Forall2_cons (R := fun e e' : option nat => e' = e /\ forall r, e = Some r -> reg r) e e' He F). revert F'. generalize (e :: l) (e' :: l'). clear F He e e' l l'. intros l l' F.
    eapply follows_bind; [now apply follows_eq|]. intros st ? _ <-. eapply follows_bind.
    { apply (follows_fold wrel eq); [apply Forall2_refl_on; reflexivity | | exact W]. intros v v' x ? V <- _. now apply touch_rel. }
    intros w1 w1' _ W1. eapply follows_bind; [apply (follows_mapM _ dsame _ _ _ _ F)|].
    { intros e ? [-> He] _. destruct e as [r|]; [|intros x; discriminate]. eapply follows_weaken; [|apply deref_reg; auto]. intros p p' (P & Hid). split; [rewrite (pr_id _ _ P); now apply psi_old|]. split; apply P. }
    intros ps ps' _ Fp. eapply follows_bind.
    { apply (follows_fold wrel eq); [apply Forall2_refl_on; reflexivity | | exact W1]. intros v v' x ? V <- _. now apply touch_rel. }
    intros w2 w2' _ W2. apply follows_ok. split; [exact W2|]. cbn [snd]. unfold greedy_allocations. now rewrite (wr_rss _ _ W1), (greedy_rel _ _ _ Fp).
  Qed.
  Lemma delegation_move_rel w w' ag stake : wrel w w' -> follows (fun x x' => given x x' /\ s_owned (snd x) = []) (find_delegation_move w ag stake) (find_delegation_move w' ag stake).
  Proof.
    intros W. unfold find_delegation_move. destruct (_ <? _)%num; [apply follows_ok; now split|]. eapply follows_bind; [now apply stake_allocations_rel|]. intros [v d] [v' d'] _ (V & E). cbn [fst snd] in V, E. subst d'. apply follows_ok. split; [split; [exact V | reflexivity] | reflexivity].
  Qed.
  Lemma delegation_operator_rel w w' ag x : wrel w w' -> follows given (find_delegation_for_operator w ag x) (find_delegation_for_operator w' ag x).
  Proof.
    intros W. unfold find_delegation_for_operator. destruct (_ >? _)%num; [|apply follows_ok; now split]. eapply follows_bind; [now apply delegation_move_rel|]. intros [v d] [v' d'] _ ((V & E) & _). cbn [fst snd] in V, E. subst d'. apply follows_ok. now split.
  Qed.

  (** ** the move *)
  Definition proposed (x x' : world A * strategy A) : Prop := wrel (fst x) (fst x') /\ strel (snd x) (snd x').
  Lemma next_id_rel w w' : wrel w w' -> wrel (fst (next_pool_id w)) (fst (next_pool_id w')) /\ snd (next_pool_id w') = psi (snd (next_pool_id w)).
  Proof.
    intros []. cbn. split; [constructor; cbn; try assumption; lia|]. rewrite wr_seq0. unfold psi. destruct (Nat.leb_spec (S (w_idseq w)) s0); lia.
  Qed.
  Lemma operator_move_rel w w' ag n d ms : wrel w w' -> lives d -> follows proposed (find_operator_move w ag n d ms) (find_operator_move w' ag n (dmap d) ms).
  Proof.
    intros W Ld. unfold find_operator_move. rewrite (agent_pledge_rel w w' ag n W), (agent_cost_rel w w' ag n W). eapply follows_bind; [now apply follows_eq|]. intros pledge ? _ <-. eapply follows_bind; [now apply follows_eq|]. intros cost ? _ <-.
    eapply follows_bind.
    { apply (follows_fold (fun x x' => wrel (fst x) (fst x') /\ snd x' = snd x) (fun e e' => snd e' = phi (snd e))); [unfold dmap; apply Forall2_map_r; reflexivity| |now split].
      intros [v i] [v' i'] [id r] [id' r'] (V & Ei) Er J. cbn [fst snd] in V, Ei, Er |- *. subst i' r'. assert (L : live r) by (eapply Ld; eassumption).
      eapply follows_bind; [now apply deref_rel|]. intros p p' _ (P & Hid). eapply follows_bind; [now apply adjust_rel|]. intros q q' _ (Q & Eq). apply follows_ok. split; [|reflexivity]. cbn [fst]. apply store_rel; try assumption. now rewrite Eq. }
    intros [w1 i1] [w1' i1'] _ (W1 & _). cbn [fst snd] in W1 |- *. assert (El : length (dmap d) = length d) by apply map_length. rewrite El.
    eapply follows_bind.
    { apply (follows_fold kept eq); [apply Forall2_refl_on; reflexivity| |split; [exact W1 | split; [reflexivity | exact Ld]]].
      intros [v dd] [v' dd'] i ? (V1 & V2 & V3) <- _. cbn [fst snd] in V1, V2, V3. subst dd'. destruct (next_id_rel v v' V1) as [N1 N2]. destruct (next_pool_id v) as [v1 id], (next_pool_id v') as [v1' id']. cbn [fst snd] in N1, N2. subst id'.
      eapply follows_bind; [now apply draft_rel|]. intros p p' _ P. destruct (alloc_rel v1 v1' p p' N1 P) as (A1 & A2 & A3). destruct (alloc v1 p) as [v2 r], (alloc v1' p') as [v2' r']. cbn [fst snd] in A1, A2, A3. subst r'.
      apply follows_ok. split; [exact A1|]. cbn [fst snd]. rewrite dmap_set. split; [reflexivity|]. apply lives_set; [assumption | now right]. }
    intros [w2 d2] [w2' d2'] _ (W2 & E2 & L2). cbn [fst snd] in W2, E2, L2. subst d2'. eapply follows_bind; [now apply delegation_operator_rel|]. intros [w3 al] [w3' al'] _ (W3 & E3). cbn [fst snd] in W3, E3. subst al'.
    apply follows_ok. split; [exact W3|]. now constructor.
  Qed.
  Definition chosen (x x' : world A * num * option (strategy A)) : Prop :=
    wrel (fst (fst x)) (fst (fst x')) /\ snd (fst x') = snd (fst x) /\ match snd x, snd x' with Some st, Some st' => strel st st' | None, None => True | _, _ => False end.
  Lemma choose_rel w w' ag : wrel w w' -> settled ag -> follows chosen (choose_pool_strategy so w ag) (choose_pool_strategy so w' ag).
  Proof.
    intros W Hs. unfold choose_pool_strategy. rewrite (wr_rss _ _ W). eapply follows_bind; [apply search_rel; intros t; now apply margins_rel|]. intros [t ms] ? _ <-. destruct (0 <? t)%Z; [|apply follows_ok; split; [exact W | split; [reflexivity | exact I]]].
    eapply follows_bind; [now apply pools_to_keep_rel|]. intros [w1 d] [w1' d'] _ (W1 & E1 & L1). cbn [fst snd] in W1, E1, L1. subst d'. eapply follows_bind; [now apply operator_move_rel|]. intros [w2 st] [w2' st'] _ (W2 & S2). cbn [fst snd] in W2, S2.
    eapply follows_bind; [now apply expected_utility_rel|]. intros u ? _ <-. apply follows_ok. split; [exact W2|]. now split.
  Qed.
  (** the agent decides alike *)
  Definition decided (uid : nat) (v v' : world A) : Prop :=
    forall ag, get (w_agents v) uid = Some ag -> a_new ag = None -> forall ag', get (w_agents v') uid = Some ag' -> a_new ag' = None.
  Theorem update_rel w w' uid : wrel w w' -> (forall ag, get (w_agents w) uid = Some ag -> settled ag) -> follows (decided uid) (update_strategy so w uid) (update_strategy so w' uid).
  Proof.
    intros W Hs. unfold update_strategy, the_agent. rewrite (wr_agents _ _ W). eapply follows_bind; [now apply follows_eq|]. intros ag ? Ga <-. apply of_option_ok in Ga. specialize (Hs ag Ga).
    assert (Main : follows (decided uid)
      (let! st := the_strategy ag in let! cu := current_utility w ag in let! eu := expected_utility w ag st in let aug := augmented_utility w cu eu in
       let! wd := find_delegation_move w ag (a_stake ag) in let '(w1, del_st) := wd in let! du := expected_utility w1 ag del_st in
       let! wo := choose_pool_strategy so w1 ag in let '(w2, ou, op_st) := wo in Ok (put_agent w2 uid (agent_set_new (pick_move aug (du, del_st) (ou, op_st)) ag)))
      (let! st := the_strategy ag in let! cu := current_utility w' ag in let! eu := expected_utility w' ag st in let aug := augmented_utility w' cu eu in
       let! wd := find_delegation_move w' ag (a_stake ag) in let '(w1, del_st) := wd in let! du := expected_utility w1 ag del_st in
       let! wo := choose_pool_strategy so w1 ag in let '(w2, ou, op_st) := wo in Ok (put_agent w2 uid (agent_set_new (pick_move aug (du, del_st) (ou, op_st)) ag)))).
    { eapply follows_bind; [now apply follows_eq|]. intros st ? Est <-. unfold the_strategy in Est. apply of_option_ok in Est. eapply follows_bind; [now apply current_utility_rel|]. intros cu ? _ <-.
      eapply follows_bind; [apply expected_utility_rel; [assumption | now apply (settled_strel ag)]|]. intros eu ? _ <-. cbv zeta. replace (augmented_utility w' cu eu) with (augmented_utility w cu eu) by (unfold augmented_utility; now rewrite (wr_rel _ _ W), (wr_abs _ _ W)).
      eapply follows_bind; [now apply delegation_move_rel|]. intros [w1 ds1] [w1' ds1'] _ ((W1 & E1) & Eo). cbn [fst snd] in W1, E1, Eo. subst ds1'.
      eapply follows_bind; [apply expected_utility_rel; [assumption|]; constructor; rewrite ?Eo; try reflexivity; intros id r []|]. intros du ? _ <-.
      eapply follows_bind; [now apply choose_rel|]. intros [[w2 ou] os] [[w2' ou'] os'] _ (W2 & E2 & S2). cbn [fst snd] in W2, E2, S2. subst ou'. apply follows_ok.
      intros ag1 G1 N1 ag1' G1'. cbn [w_agents put_agent with_agents] in G1, G1'. rewrite get_set_eq in G1, G1'. injection G1 as <-. injection G1' as <-. cbn in N1 |- *. unfold pick_move in *. cbn [fst snd] in *.
      destruct os as [s|], os' as [s'|]; try contradiction; [|assumption]. destruct (_ <? ou)%num; [discriminate | assumption]. }
    destruct (a_profile ag); [exact Main | exact Main|]. apply follows_ok. intros ag1 G1 N1 ag1' G1'. rewrite (wr_agents _ _ W) in G1'. congruence.
  Qed.
End Stable.
