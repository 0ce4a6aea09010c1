(** How operators price their pools (C60): what the margins of a non-myopic operator achieve, and what the documentation of choose_pool_strategy
    (stakeholder.py:117-123, "Calculate suitable margins so that all t pools end up in the top k") promises beyond that. *)
From Coq Require Import ZArith QArith Qcanon List Bool Arith Lia Permutation Sorted.
From Verif Require Import Num Py QcTac Rewards RewardFacts SortedKeyList SLFacts World Stakeholder Sched Sim Init Reach ListFacts Inv Eval Exec Static Step SimInv Spec Greedy PropInit ExactInv PropExact PropState PropMove PropSearch Demo.
Import ListNotations.
Open Scope nat_scope.

(** * Specification *)
(** the pools in operation *)
Definition pools_of {A} (w : world A) : list (pool A) := flat_map (fun e => match get (w_heap w) (snd e) with Some p => [p] | None => [] end) (w_pools w).
(** how many pools of other agents satisfy [f] *)
Definition rivals {A} (w : world A) (a : nat) (f : pool A -> bool) : nat := length (filter (fun q => negb (Nat.eqb (p_owner q) a) && f q) (pools_of w)).
(** how many pools, of whichever agent, other than the one with identifier [id] satisfy [f] *)
Definition competitors {A} (w : world A) (id : nat) (f : pool A -> bool) : nat := length (filter (fun q => negb (Nat.eqb (p_id q) id) && f q) (pools_of w)).
(** [p] is priced to take the t-th place from the bottom of the first k places among the pools of other agents: fewer than k - t + 1 of them are at least
    as desirable; or it asks for nothing and even so could not be made more desirable by 1e-6 than k - t + 1 of them (or than no pool at all) *)
Definition priced_for (w : world QcA) (a : nat) (t : Z) (p : pool QcA) : Prop :=
  (Z.of_nat (rivals w a (fun q => Qc_leb (p_des p) (p_des q))) <= r_k (w_rss w) - t)%Z \/
  (p_margin p = 0%Qc /\ ((p_pp p < boost (a := QcA))%Qc \/ (r_k (w_rss w) - t + 1 <= Z.of_nat (rivals w a (fun q => Qc_ltb (p_pp p - boost (a := QcA)) (p_des q))))%Z)).

(** * Places in a sorted list *)
Lemma sorted_filter {X} (R : X -> X -> Prop) (f : X -> bool) l : StronglySorted R l -> StronglySorted R (filter f l).
Proof.
  induction 1 as [|x l S IH F]; cbn; [constructor|]. destruct (f x); [|assumption]. constructor; [assumption|]. rewrite Forall_forall in *. intros y J. apply filter_In in J as [J _]. now apply F.
Qed.
Lemma sorted_map {X Y} (R : X -> X -> Prop) (R' : Y -> Y -> Prop) (f : X -> Y) l : (forall x y, In x l -> In y l -> R x y -> R' (f x) (f y)) -> StronglySorted R l -> StronglySorted R' (map f l).
Proof.
  intros H S. induction S as [|x l S IH F]; cbn; constructor.
  - apply IH. intros; apply H; cbn; auto.
  - rewrite Forall_forall in *. intros y J. apply in_map_iff in J as (z & <- & J). apply H; cbn; auto.
Qed.
(** no entry from position [i] on satisfies [f] *)
Lemma at_most {X} (R : X -> X -> Prop) (f : X -> bool) : forall l i x, StronglySorted R l -> nth_error l i = Some x -> f x = false -> (forall y, In y l -> R x y -> f y = false) -> length (filter f l) <= i.
Proof.
  induction l as [|y l IH]; intros [|i] x S E Fx H; try discriminate.
  - injection E as ->. apply StronglySorted_inv in S as [S F]. rewrite Forall_forall in F. cbn. rewrite Fx. assert (N : filter f l = []); [|rewrite N; cbn; lia].
    clear IH S Fx. induction l as [|z l IHl]; [reflexivity|]. cbn. rewrite (H z); [|right; now left | apply F; now left]. apply IHl.
    + intros y0 J. apply F. now right.
    + intros y0 J. apply H. destruct J as [->|J]; [now left | right; now right].
  - apply StronglySorted_inv in S as [S F]. cbn in E. assert (L := IH i x S E Fx (fun y0 J => H y0 (or_intror J))). cbn. destruct (f y); cbn; lia.
Qed.
(** every entry up to position [i] satisfies [f] *)
Lemma at_least {X} (R : X -> X -> Prop) (f : X -> bool) : forall l i x, StronglySorted R l -> nth_error l i = Some x -> f x = true -> (forall y, In y l -> R y x -> f y = true) -> i + 1 <= length (filter f l).
Proof.
  induction l as [|y l IH]; intros [|i] x S E Fx H; try discriminate.
  - injection E as ->. cbn. rewrite Fx. cbn. lia.
  - apply StronglySorted_inv in S as [S F]. rewrite Forall_forall in F. cbn in E. assert (L := IH i x S E Fx (fun y0 J => H y0 (or_intror J))).
    cbn. rewrite (H y); [cbn; lia | now left | apply F; eapply nth_error_In; eassumption].
Qed.
Lemma filter_comm {X} (f g : X -> bool) l : filter f (filter g l) = filter (fun x => g x && f x) l.
Proof. induction l as [|x l IH]; cbn; [reflexivity|]. destruct (g x); cbn; [destruct (f x); congruence | assumption]. Qed.
Lemma filter_length_perm {X} (f : X -> bool) l l' : Permutation l l' -> length (filter f l) = length (filter f l').
Proof. induction 1; cbn; repeat match goal with |- context [if ?b then _ else _] => destruct b end; cbn; congruence. Qed.

(** * The list of the pools of other agents an operator looks at *)
Section Fixed.
  Context (w : world QcA) (a : nat).
  (** how attractive an entry is *)
  Definition worth (e : option nat) : Qc := match e with None => 0%Qc | Some r => match get (w_heap w) r with Some p => p_des p | None => 0%Qc end end.
  Definition other (e : option nat) : bool := match e with None => true | Some r => match get (w_heap w) r with Some p => negb (Nat.eqb (p_owner p) a) | None => false end end.
  Definition meets (f : pool QcA -> bool) (e : option nat) : bool := match e with None => false | Some r => match get (w_heap w) r with Some p => f p | None => false end end.

  Context (m : nat) (rk : sl QcA).
  Hypothesis R : rank_ok (fun p => Ok (pool_key p)) (w_heap w) m (values (w_pools w)) rk.

  Lemma elems_sorted : StronglySorted (fun x y => (worth y <= worth x)%Qc) (sl_elems rk).
  Proof.
    destruct R as (S & _ & F). apply (sorted_map (fun x y => key_ltb (fst y) (fst x) = false) _ snd); [|exact S].
    intros [k e] [k' e'] J J' L. cbn [fst snd] in *. apply F in J, J'.
    assert (W : forall k e, match e with None => k = key_none (A := QcA) | Some r => exists p, get (w_heap w) r = Some p /\ Ok (pool_key p) = Ok k end -> fst (fst k) = Qcopp (worth e)).
    { intros k0 [r|] H; unfold worth; [destruct H as (p & -> & H); apply Ok_inj in H; rewrite <- H; unfold pool_key, opp; cbn; ring | subst; cbn; ring]. }
    apply W in J, J'. destruct k as [[k1 k2] k3], k' as [[k1' k2'] k3']. cbn [fst] in *. subst k1 k1'. unfold key_ltb in L.
    cbn [eqb ltb QcA] in L. destruct (Qc_eqb_spec (- worth e') (- worth e)) as [E|E]; [qlra|]. destruct (Qc_ltb_spec (- worth e') (- worth e)) as [E'|E']; [discriminate | qlra].
  Qed.
  Lemma fixed_is (ag : agent QcA) fixed : a_id ag = a -> rankings w ag = Ok rk -> fixed_pools_ranked w ag = Ok fixed -> fixed = filter other (sl_elems rk).
  Proof.
    intros Ea Hr H. unfold fixed_pools_ranked in H. rewrite Hr in H. cbn [bind] in H. revert fixed H. generalize (sl_elems rk) as l. induction l as [|e l IH]; intros fixed H; cbn [filterM] in H.
    - injection H as <-. reflexivity.
    - apply bind_ok in H as (b & Hb & H). apply bind_ok in H as (l' & Hl & H). injection H as <-. apply IH in Hl. subst l'. cbn [filter].
      assert (Eb : b = other e); [|now rewrite Eb]. unfold other. destruct e as [r|]; [|now injection Hb].
      apply bind_ok in Hb as (p & Hp & Hb). unfold deref in Hp. apply of_option_ok in Hp. rewrite Hp. injection Hb as <-. now rewrite Ea.
  Qed.
  Lemma count_fixed f : length (filter (meets f) (filter other (sl_elems rk))) = rivals w a f.
  Proof.
    rewrite filter_comm. destruct R as (_ & P & _). rewrite (filter_length_perm _ _ _ P), filter_app, app_length.
    assert (E0 : filter (fun x => other x && meets f x) (repeat None m) = []) by (clear; induction m as [|n IH]; [reflexivity | exact IH]). rewrite E0. cbn [length plus].
    unfold rivals, pools_of, values. generalize (w_pools w) as d. induction d as [|[id r] d IH]; [reflexivity|]. cbn [map flat_map snd filter].
    unfold other, meets in *. destruct (get (w_heap w) r) as [p|]; cbn [app filter].
    - destruct (negb _); cbn [andb]; [|exact IH]. destruct (f p); cbn [length]; congruence.
    - exact IH.
  Qed.
  Lemma fixed_sorted : StronglySorted (fun x y => (worth y <= worth x)%Qc) (filter other (sl_elems rk)).
  Proof. apply sorted_filter, elems_sorted. Qed.

  (** fewer than i + 1 pools of others are more attractive than the entry at position i *)
  Lemma beaten i e (d : Qc) : nth_error (filter other (sl_elems rk)) i = Some e -> (worth e < d)%Qc -> rivals w a (fun q => Qc_leb d (p_des q)) <= i.
  Proof.
    intros E L. rewrite <- count_fixed. assert (N : forall y, (worth y <= worth e)%Qc -> meets (fun q => Qc_leb d (p_des q)) y = false).
    { intros y Ly. unfold meets, worth in *. destruct y as [r|]; [|reflexivity]. destruct (get (w_heap w) r) as [q|]; [|reflexivity]. destruct (Qc_leb_spec d (p_des q)); [exfalso; qlra | reflexivity]. }
    eapply at_most; [apply fixed_sorted | exact E | apply N, Qcle_refl | intros y _; apply N].
  Qed.
  (** at least i + 1 pools of others are as attractive as the entry at position i *)
  Lemma unbeaten i e (d : Qc) : nth_error (filter other (sl_elems rk)) i = Some e -> (0 <= d)%Qc -> (d < worth e)%Qc -> i + 1 <= rivals w a (fun q => Qc_ltb d (p_des q)).
  Proof.
    intros E P L. rewrite <- count_fixed. assert (N : forall y, (worth e <= worth y)%Qc -> meets (fun q => Qc_ltb d (p_des q)) y = true).
    { intros y Ly. unfold meets, worth in *. destruct y as [r|]; [|exfalso; qlra]. destruct (get (w_heap w) r) as [q|]; [|exfalso; qlra]. destruct (Qc_ltb_spec d (p_des q)); [reflexivity | exfalso; qlra]. }
    eapply at_least; [apply fixed_sorted | exact E | apply N, Qcle_refl | intros y _; apply N].
  Qed.
End Fixed.

(** * The margins of a non-myopic operator *)
Definition fitting (w : world QcA) (a : nat) (pp : Qc) (t : Z) (mg : Qc) : Prop :=
  (Z.of_nat (rivals w a (fun q => Qc_leb (desirability (A := QcA) mg pp) (p_des q))) <= r_k (w_rss w) - t)%Z \/
  (mg = 0%Qc /\ ((pp < boost (a := QcA))%Qc \/ (r_k (w_rss w) - t + 1 <= Z.of_nat (rivals w a (fun q => Qc_ltb (pp - boost (a := QcA)) (p_des q))))%Z)).

Lemma fold_margins {B U} (P : B -> Qc -> Prop) (g : list Qc * U -> B -> res (list Qc * U)) l : (forall acc t r, In t l -> g acc t = Ok r -> exists mg, fst r = fst acc ++ [mg] /\ P t mg) ->
  forall acc r, foldM g l acc = Ok r -> exists ms, fst r = fst acc ++ ms /\ Forall2 P l ms.
Proof.
  induction l as [|t l IH]; intros H acc r E; cbn in E.
  - injection E as <-. exists []. split; [now rewrite app_nil_r | constructor].
  - apply bind_ok in E as (acc1 & E1 & E). destruct (H _ t _ (or_introl eq_refl) E1) as (mg & Eg & Pg).
    destruct (IH (fun acc t r J => H acc t r (or_intror J)) _ _ E) as (ms & Em & Pm). exists (mg :: ms). split; [rewrite Em, Eg, <- app_assoc; reflexivity | now constructor].
Qed.
Lemma boost_pos : (0 < boost (a := QcA))%Qc.  Proof. reflexivity. Qed.
Lemma desirability_of_suitable (pp x mg : Qc) : suitable_margin (A := QcA) pp x = Ok mg -> (0 < pp)%Qc -> (0 <= x)%Qc -> desirability (A := QcA) mg pp = Qcmin x pp.
Proof.
  intros H P X. unfold suitable_margin in H. change (ltb (zero (a := QcA)) pp) with (Qc_ltb 0 pp) in H. destruct (Qc_ltb_spec 0 pp) as [_|N]; [|contradiction].
  rewrite (pdiv_ok x pp) in H by (now apply Qc_pos_neq). cbn [bind] in H. apply Ok_inj in H. subst mg. unfold desirability.
  rewrite !pmax_max. change (sub (a := QcA)) with Qcminus. change (mul (a := QcA)) with Qcmult. change (one (a := QcA)) with 1%Qc. change (zero (a := QcA)) with 0%Qc. change (div (a := QcA)) with Qcdiv.
  assert (E : (x / pp * pp = x)%Qc) by (apply Qcdiv_mul; now apply Qc_pos_neq). set (y := (x / pp)%Qc) in *.
  destruct (Qclt_le_dec y 1) as [L|L].
  - assert (0 < (1 - y) * pp)%Qc by (apply Qcmult_pos; qlra). assert (E2 : ((1 - y) * pp = pp - x)%Qc) by (rewrite <- E; ring).
    replace (Qcmax (1 - y) 0) with (1 - y)%Qc by (unfold Qcmax; qcase; qlra). replace ((1 - (1 - y)) * pp)%Qc with x by (rewrite <- E; ring). unfold Qcmax, Qcmin. qcase; qlra.
  - assert (0 <= (y - 1) * pp)%Qc by (apply Qcmult_nonneg; qlra). assert (E2 : ((y - 1) * pp = x - pp)%Qc) by (rewrite <- E; ring).
    replace (Qcmax (1 - y) 0) with 0%Qc by (unfold Qcmax; qcase; qlra). replace ((1 - 0) * pp)%Qc with pp by ring. unfold Qcmax, Qcmin. qcase; qlra.
Qed.

Section Margins.
  Context (w : world QcA) (ag : agent QcA) (m : nat).
  Hypothesis R : rank_ok (fun p => Ok (pool_key p)) (w_heap w) m (values (w_pools w)) (w_rank w).
  Hypothesis Des : forall r p, In r (values (w_pools w)) -> get (w_heap w) r = Some p -> (0 <= p_des p)%Qc.
  Hypothesis Pr : a_profile ag = NonMyopic.
  Notation a := (a_id ag).

  Lemma margins_fit n ms u : (1 <= n <= r_k (w_rss w))%Z -> margins_and_utility w ag n = Ok (ms, u) ->
    exists pledge cost pp, agent_pledge_per_pool w ag n = Ok pledge /\ agent_cost_per_pool w ag n = Ok cost /\ potential_profit (w_rss w) pledge cost = Ok pp /\
      Forall2 (fitting w a pp) (zrange 1 (n + 1)) ms.
  Proof.
    intros Hn H. unfold margins_and_utility in H. rewrite Pr in H. apply bind_ok in H as (cost & Hc & H). apply bind_ok in H as (pledge & Hp & H). cbv zeta in H.
    apply bind_ok in H as (pp & Hpp & H). apply bind_ok in H as (fixed & Hf & H). exists pledge, cost, pp. repeat (split; [assumption|]).
    assert (Hr : rankings w ag = Ok (w_rank w)) by (unfold rankings; now rewrite Pr).
    apply (fixed_is w a (w_rank w) ag fixed eq_refl Hr) in Hf. subst fixed.
    assert (W0 : forall e, In e (filter (other w a) (sl_elems (w_rank w))) -> (0 <= worth w e)%Qc).
    { intros e J. apply filter_In in J as [J _]. unfold worth. destruct e as [r|]; [|apply Qcle_refl]. destruct (get (w_heap w) r) as [p|] eqn:G; [|apply Qcle_refl].
      destruct R as (_ & P & _). apply (Permutation_in _ P) in J. apply in_app_iff in J as [J|J]; [apply repeat_spec in J; discriminate|]. apply in_map_iff in J as (r' & Er & J). injection Er as ->.
      now apply (Des r p). }
    assert (Ex : exists ms', ms = [] ++ ms' /\ Forall2 (fitting w a pp) (zrange 1 (n + 1)) ms').
    { refine (fold_margins (U := Qc) _ _ (zrange 1 (n + 1)) _ ([], zero (a := QcA)) (ms, u) H). clear H ms u. intros [ms u] t r J H. apply zrange_In in J. cbn [fst].
      apply bind_ok in H as (e & He & H). apply bind_ok in H as (dp & Hd & H).
      assert (Ie : nth_error (filter (other w a) (sl_elems (w_rank w))) (Z.to_nat (r_k (w_rss w) - t)) = Some e).
      { unfold py_index in He. destruct (Z.ltb_spec (r_k (w_rss w) - t) 0); [lia|]. destruct (_ && _)%bool; [|discriminate]. now apply of_option_ok in He. }
      assert (Fe : fst dp = worth w e).
      { unfold worth. destruct e as [x|]; [|injection Hd as <-; reflexivity]. apply bind_ok in Hd as (p & Hq & Hd). unfold deref in Hq. apply of_option_ok in Hq. rewrite Hq. injection Hd as <-. reflexivity. }
      assert (We := W0 e (nth_error_In _ _ Ie)). assert (B := boost_pos). cbv zeta in H. rewrite Fe in H. set (D := (worth w e)) in *.
      change (add (a := QcA) D (boost (a := QcA))) with (D + boost (a := QcA))%Qc in H. change (ltb (a := QcA) pp (D + boost (a := QcA))%Qc) with (Qc_ltb pp (D + boost (a := QcA))%Qc) in H. set (b := boost (a := QcA)) in *.
      destruct (Qc_ltb_spec pp (D + b)) as [L|L].
      - apply bind_ok in H as (ou & _ & H). injection H as <-. exists 0%Qc. split; [reflexivity|]. right. split; [reflexivity|]. fold b. destruct (Qclt_le_dec pp b) as [Lb|Lb]; [now left|]. right.
        assert (Q := unbeaten w a m (w_rank w) R _ e (pp - b)%Qc Ie ltac:(qlra) ltac:(fold D; qlra)). lia.
      - apply bind_ok in H as (mg & Hm & H). apply bind_ok in H as (ou & _ & H). injection H as <-. exists mg. split; [reflexivity|]. left.
        assert (Ed : desirability (A := QcA) mg pp = Qcmin (Qcmax (D + b) (snd dp)) pp).
        { apply desirability_of_suitable; [rewrite <- pmax_max; exact Hm | qlra | eapply Qcle_trans; [|apply Qcmax_l]; qlra]. }
        assert (Q := beaten w a m (w_rank w) R _ e (desirability (A := QcA) mg pp) Ie). assert (D < desirability (A := QcA) mg pp)%Qc; [|specialize (Q H); lia].
        rewrite Ed. assert (D + b <= Qcmin (Qcmax (D + b) (snd dp)) pp)%Qc by (apply Qcmin_glb; [apply Qcmax_l | qlra]). qlra. }
    destruct Ex as (ms' & -> & Ex). exact Ex.
  Qed.
End Margins.

(** * The pools of a move get these margins, in order *)
Section Moves.
  Context {A : Arith} (O : OrdLaws A).
  Notation num := (T A).
  Definition carries (w : world A) (refs : list nat) (ms : list num) : Prop := Forall2 (fun r mg => exists p, get (w_heap w) r = Some p /\ p_margin p = mg) refs ms.
  Lemma carries_stat w w' refs ms : hstat w w' -> carries w refs ms -> carries w' refs ms.
  Proof. intros H C. induction C as [|r mg refs ms (p & G & E) C IH]; constructor; [|assumption]. destruct (H r p G) as (p' & G' & S). exists p'. split; [assumption|]. rewrite S. cbn. exact E. Qed.
  Lemma carries_same w w' refs ms : (forall r, In r refs -> get (w_heap w') r = get (w_heap w) r) -> carries w refs ms -> carries w' refs ms.
  Proof.
    intros H C. induction C as [|r mg refs ms (p & G & E) C IH]; constructor.
    - exists p. split; [rewrite H by (now left); assumption | assumption].
    - apply IH. intros r' J. apply H. now right.
  Qed.
  Lemma skipn_nth {X} (l : list X) i x : nth_error l i = Some x -> skipn i l = x :: skipn (S i) l.
  Proof. revert i. induction l as [|y l IH]; intros [|i] E; try discriminate; [injection E as ->; reflexivity | now apply IH]. Qed.
  Lemma adjust_margins ag pledge cost ms : forall d w i w' i', NoDup (map snd d) -> i + length d <= length ms -> foldM (adjust_one ag pledge cost ms) d (w, i) = Ok (w', i') ->
    carries w' (map snd d) (firstn (length d) (skipn i ms)) /\ (forall r, ~ In r (map snd d) -> get (w_heap w') r = get (w_heap w) r) /\ w_next w' = w_next w /\ w_idseq w' = w_idseq w.
  Proof.
    induction d as [|[id r] d IH]; intros w i w' i' N L H; cbn in H.
    - injection H as <- <-. cbn. split; [constructor|]. auto.
    - apply bind_ok in H as ([w1 i1] & H1 & H). apply bind_ok in H1 as (p & Hp & H1). apply bind_ok in H1 as (p' & Ha & H1). injection H1 as <- <-.
      cbn in N. apply NoDup_cons_iff in N as [N1 N]. cbn in L. apply IH in H as (C & F & En & Es); [|assumption|lia]. cbn [map snd length].
      destruct (nth_error ms i) as [mg|] eqn:Ei; [|apply nth_error_None in Ei; lia]. rewrite (skipn_nth _ _ _ Ei). cbn [firstn]. split; [|split; [|split; [exact En | exact Es]]].
      + constructor; [|assumption]. rewrite F by assumption. cbn. rewrite get_set_eq. exists p'. split; [reflexivity|].
        unfold adjust_pool in Ha. apply bind_ok in Ha as (p2 & _ & Ha). apply bind_ok in Ha as (mg' & Hm & Ha). injection Ha as <-. unfold margin_at in Hm. rewrite Ei in Hm. injection Hm as <-. reflexivity.
      + intros r' J. rewrite F by (intros K; apply J; now right). cbn. apply get_set_ne. intros ->. apply J. now left.
  Qed.
  Lemma set_new {V} (d : dict V) k v : get d k = None -> set d k v = d ++ [(k, v)].
  Proof. induction d as [|[k' v'] d IH]; cbn; [reflexivity|]. destruct (Nat.eqb k k'); [discriminate | intros; f_equal; auto]. Qed.
  Lemma draft_margins ag pledge cost ms : forall b a w d w' d', a + b <= length ms -> (forall id, In id (keys d) -> id <= w_idseq w) ->
    foldM (draft_one ag pledge cost ms) (seq a b) (w, d) = Ok (w', d') ->
    exists new, d' = d ++ new /\ carries w' (map snd new) (firstn b (skipn a ms)) /\ (forall r, r < w_next w -> get (w_heap w') r = get (w_heap w) r) /\ w_next w <= w_next w'.
  Proof.
    induction b as [|b IH]; intros a w d w' d' L K H; cbn in H.
    - injection H as <- <-. exists []. rewrite app_nil_r. split; [reflexivity|]. split; [constructor|]. split; [auto | lia].
    - apply bind_ok in H as ([w1 d1] & H1 & H). apply bind_ok in H1 as (p & Hp & H1). injection H1 as <- <-.
      rewrite (set_new d) in H.
      2: { destruct (get d (S (w_idseq w))) as [x|] eqn:E; [|reflexivity]. exfalso. assert (J : In (S (w_idseq w)) (keys d)) by (apply get_Some_key; eauto). apply K in J. lia. }
      apply IH in H as (new & -> & C & F & Nx); [|lia|].
      2: { intros id J. unfold keys in J. rewrite map_app, in_app_iff in J. cbn in *. destruct J as [J|[<-|[]]]; [apply K in J; lia | lia]. }
      cbn [w_next] in F, Nx. exists ((S (w_idseq w), w_next w) :: new). rewrite <- app_assoc. split; [reflexivity|].
      destruct (nth_error ms a) as [mg|] eqn:Ei; [|apply nth_error_None in Ei; lia]. rewrite (skipn_nth _ _ _ Ei). cbn [firstn map snd]. split; [|split].
      + constructor; [|assumption]. exists p. split.
        * rewrite F by (cbn; lia). cbn. now rewrite get_set_eq.
        * unfold draft_pool in Hp. apply bind_ok in Hp as (p2 & _ & Hp). apply bind_ok in Hp as (mg' & Hm & Hp). injection Hp as <-. unfold margin_at in Hm. rewrite Ei in Hm. injection Hm as <-. reflexivity.
      + intros r Hr. rewrite F by (cbn; lia). cbn. apply get_set_ne. cbn. lia.
      + cbn in Nx. lia.
  Qed.
  Lemma delegation_stat (w : world A) ag s (w' : world A) new : find_delegation_move w ag s = Ok (w', new) -> hstat w w'.
  Proof.
    unfold find_delegation_move. destruct (ltb s min_stake_unit); [intros [= <- _]; apply hstat_refl|]. intros H. apply bind_ok in H as ([w1 al] & H & E). injection E as <- _.
    unfold stake_allocations in H. apply bind_ok in H as (rk & _ & H). apply bind_ok in H as (el & _ & H). destruct el; [injection H as <- _; apply hstat_refl|].
    apply bind_ok in H as (st & _ & H). apply bind_ok in H as (wa & Ha & H). apply bind_ok in H as (ps & _ & H). apply bind_ok in H as (wb & Hb & H). injection H as <- _.
    eapply hstat_trans; eapply hstat_foldM; try eassumption; cbn; intros ? ? ? T; eapply touch_hstat; exact T.
  Qed.
  Lemma move_margins (w : world A) ag n d ms (w' : world A) new : NoDup (map snd d) -> (forall id r, In (id, r) d -> id <= w_idseq w /\ r < w_next w) -> length d <= Z.to_nat n -> length ms = Z.to_nat n ->
    find_operator_move w ag n d ms = Ok (w', new) -> carries w' (map snd (s_owned new)) ms.
  Proof.
    intros N K L Lm H. unfold find_operator_move in H. apply bind_ok in H as (pledge & _ & H). apply bind_ok in H as (cost & _ & H).
    change (fun (acc : world A * nat) (e : nat * nat) => let '(w, i) := acc in let! p := deref w (snd e) in let! p' := adjust_pool w ag pledge cost ms i p in Ok (store w (snd e) p', S i)) with (adjust_one ag pledge cost ms) in H.
    apply bind_ok in H as ([w2 i2] & H2 & H). cbn [fst] in H.
    change (fun (acc : world A * dict nat) (i : nat) => let '(w, d) := acc in let '(w', id) := next_pool_id w in let! p := draft_pool w' ag pledge cost ms i id in
      let '(w'', r) := alloc w' p in Ok (w'', set d id r)) with (draft_one ag pledge cost ms) in H.
    apply bind_ok in H as ([w3 d3] & H3 & H). apply bind_ok in H as ([w4 al4] & H4 & H). injection H as <- <-. cbn [s_owned].
    apply adjust_margins in H2 as (C2 & F2 & En2 & Es2); [|assumption|lia]. cbn [skipn] in C2.
    apply draft_margins in H3 as (more & -> & C3 & F3 & Nx3); [|lia|]. 2: { intros id J. apply in_map_iff in J as ([id' r] & <- & J). rewrite Es2. now apply (K id' r). }
    assert (C : carries w3 (map snd (d ++ more)) ms).
    { rewrite map_app. rewrite <- (firstn_skipn (length d) ms). apply Forall2_app.
      - apply (carries_same w2); [|exact C2]. intros r J. apply F3. rewrite En2. apply in_map_iff in J as ([id r'] & <- & J). now apply (K id r').
      - replace (Z.to_nat n - length d) with (length (skipn (length d) ms)) in C3 by (rewrite skipn_length; lia). now rewrite firstn_all in C3. }
    unfold find_delegation_for_operator in H4. destruct (ltb _ _); [|injection H4 as <- <-; exact C]. apply bind_ok in H4 as ([w5 s5] & H5 & H4). injection H4 as <- <-. eapply carries_stat; [|exact C]. eapply delegation_stat; exact H5.
  Qed.
End Moves.

(** * The state an activation leaves behind *)
Section Step60.
  Variable so : list nat -> list nat -> list nat.
  Hypothesis SO : set_order so.
  Notation F3 := (pool_facts False False).
  Notation egood := (egood False False False).

  Lemma pools_of_In (w : world QcA) p : NoDup (keys (w_pools w)) -> In p (pools_of w) <-> exists id, active w id p.
  Proof.
    intros N. unfold pools_of, active. rewrite in_flat_map. split.
    - intros ([id r] & J & K). cbn in K. destruct (get (w_heap w) r) as [q|] eqn:G; [|destruct K]. destruct K as [->|[]]. exists id, r. split; [now apply In_get | assumption].
    - intros (id & r & G1 & G2). exists (id, r). split; [now apply get_In|]. cbn. rewrite G2. now left.
  Qed.
  Lemma ids_nodup (w : world QcA) f : NoDup (keys (w_pools w)) -> (forall id p, active w id p -> p_id p = id) -> NoDup (map p_id (filter f (pools_of w))).
  Proof.
    intros N H. assert (G : forall d, NoDup (keys d) -> (forall id r, In (id, r) d -> In (id, r) (w_pools w)) ->
      NoDup (map p_id (filter f (flat_map (fun e => match get (w_heap w) (snd e) with Some p => [p] | None => [] end) d)))
      /\ forall i, In i (map p_id (filter f (flat_map (fun e => match get (w_heap w) (snd e) with Some p => [p] | None => [] end) d))) -> In i (keys d)).
    { induction d as [|[id r] d IH]; intros Nd Hd; [split; [constructor | intros i []]|]. apply NoDup_cons_iff in Nd as [N1 N2]. destruct (IH N2 (fun i r' J => Hd i r' (or_intror J))) as [I1 I2].
      cbn [flat_map snd]. destruct (get (w_heap w) r) as [p|] eqn:Gp; cbn [app]; [|split; [assumption | intros; right; now apply I2]].
      assert (Ei : p_id p = id). { apply H. exists r. split; [|assumption]. apply In_get; [assumption|]. apply Hd. now left. }
      cbn [filter]. destruct (f p); cbn [map]; [|split; [assumption | intros; right; now apply I2]]. split.
      - constructor; [|assumption]. rewrite Ei. intros J. apply I2 in J. now apply N1.
      - intros i [<-|J]; [rewrite Ei; now left | right; now apply I2]. }
    now apply G.
  Qed.
  Lemma rivals_le (w w' : world QcA) a f : NoDup (keys (w_pools w)) -> NoDup (keys (w_pools w')) -> (forall id p, active w id p -> p_id p = id) -> (forall id p, active w' id p -> p_id p = id) ->
    (forall id p, active w id p -> p_owner p <> a -> f p = true -> exists p', active w' id p' /\ p_owner p' <> a /\ f p' = true) -> rivals w a f <= rivals w' a f.
  Proof.
    intros N N' H H' S. unfold rivals. rewrite <- (map_length p_id (filter _ (pools_of w))), <- (map_length p_id (filter _ (pools_of w'))). apply NoDup_incl_length; [now apply ids_nodup|].
    intros i J. apply in_map_iff in J as (p & <- & J). apply filter_In in J as [J K]. apply andb_true_iff in K as [K1 K2]. apply negb_true_iff, Nat.eqb_neq in K1. apply pools_of_In in J as (id & J); [|assumption].
    destruct (S id p J K1 K2) as (p' & J' & K1' & K2'). rewrite (H _ _ J), <- (H' _ _ J'). apply in_map. apply filter_In. split; [apply pools_of_In; eauto|]. apply andb_true_iff. split; [now apply negb_true_iff, Nat.eqb_neq | assumption].
  Qed.
  Definition reg_ids (w : world QcA) : Prop := NoDup (keys (w_pools w)) /\ forall id p, active w id p -> p_id p = id.
  Lemma inv_ids m al ow w : Inv (A := QcA) F3 True m al ow w -> reg_ids w.
  Proof.
    intros I. split; [exact (i_nd _ _ _ _ _ _ I)|]. intros id p (r & G1 & G2). destruct (i_reg _ _ _ _ _ _ I id r G1) as (p' & G3 & E & _). congruence.
  Qed.
  Lemma static_des (p p' : pool QcA) : same_static p p' -> p_owner p' = p_owner p /\ p_des p' = p_des p /\ p_pp p' = p_pp p /\ p_margin p' = p_margin p /\ p_id p' = p_id p.
  Proof. unfold same_static. intros ->. repeat split. Qed.

  Lemma others_same m (w w' w1 w2 w3 : world QcA) uid ag new : egood m w -> egood m w' -> efr uid w w1 -> efr uid w w2 -> executed uid new ag w2 w3 -> w' = with_idle false w3 ->
    reg_ids w1 -> forall f : Qc -> bool, rivals w' uid (fun q => f (p_des q)) = rivals w1 uid (fun q => f (p_des q)).
  Proof.
    intros G G' E1 E2 X Ew R1 f. assert (I := g_inv _ _ _ _ _ G). assert (I' := g_inv _ _ _ _ _ G'). destruct (inv_ids _ _ _ _ I') as [N' H']. destruct R1 as [N1 H1].
    assert (Ep1 : w_pools w1 = w_pools w) by apply E1. assert (Ep2 : w_pools w2 = w_pools w) by apply E2. assert (Ea2 : w_agents w2 = w_agents w) by apply E2.
    apply Nat.le_antisymm.
    - apply rivals_le; [assumption.. |]. intros id p' J Ne Fd.
      destruct (proj2 (good_operates _ _ _ _ _ G' (p_owner p') id p') (conj J eq_refl)) as (ag' & st' & r & (P1 & P2) & P3 & P4). rewrite Ew in P1, P4. cbn in P1, P4.
      assert (Y := x_others _ _ _ _ _ X (p_owner p') Ne). rewrite Ea2 in Y. destruct (get (w_agents w) (p_owner p')) as [ag0|] eqn:Ga0; [|congruence].
      destruct Y as (ag1 & Y1 & (_ & _ & _ & _ & _ & Y2)). rewrite P1 in Y1. injection Y1 as <-.
      assert (exists st0, a_strategy ag0 = Some st0 /\ s_owned st0 = s_owned st') as (st0 & Z1 & Z2).
      { destruct Y2 as [Y2|(st0 & al' & Y2 & Y3)]; [exists st'; split; [congruence | reflexivity]|]. exists st0. split; [assumption|]. rewrite P2 in Y3. injection Y3 as ->. reflexivity. }
      assert (Ow : ow_of w (p_owner p') id = Some r) by (unfold ow_of; rewrite Ga0, Z1, Z2; exact P3).
      destruct (i_own _ _ _ _ _ _ I _ id r Ow) as [G1 G2]. destruct (i_reg _ _ _ _ _ _ I id r G1) as (p0 & G3 & _).
      destruct E1 as (_ & _ & _ & E1 & _). destruct E2 as (_ & _ & _ & E2 & _). destruct (E1 r p0 G3) as (p1 & Gp1 & S1). destruct (E2 r p0 G3) as (p2 & Gp2 & S2).
      apply static_des in S1 as (S11 & S12 & _), S2 as (S21 & S22 & S23).
      assert (Ow0 : p_owner p0 = p_owner p') by now apply G2.
      destruct (x_static _ _ _ _ _ X id r p2) as (_ & p3 & Gp3 & S3); [now rewrite Ep2 | assumption | congruence|]. apply static_des in S3 as (S31 & S32 & _).
      exists p1. split; [exists r; split; [now rewrite Ep1 | assumption]|]. split; [congruence|]. rewrite P4 in Gp3. injection Gp3 as <-. rewrite <- Fd. f_equal. congruence.
    - apply rivals_le; [assumption.. |]. intros id p1 (r & G1 & G2) Ne Fd. rewrite Ep1 in G1. destruct (i_reg _ _ _ _ _ _ I id r G1) as (p0 & G3 & _).
      destruct E1 as (_ & _ & _ & E1 & _). destruct E2 as (_ & _ & _ & E2 & _). destruct (E1 r p0 G3) as (p1' & Gp1 & S1). rewrite G2 in Gp1. injection Gp1 as <-. destruct (E2 r p0 G3) as (p2 & Gp2 & S2).
      apply static_des in S1 as (S11 & S12 & _), S2 as (S21 & S22 & S23).
      destruct (x_static _ _ _ _ _ X id r p2) as (G4 & p3 & Gp3 & S3); [now rewrite Ep2 | assumption | congruence|]. apply static_des in S3 as (S31 & S32 & _).
      exists p3. rewrite Ew. split; [exists r; split; assumption|]. split; [congruence|]. rewrite <- Fd. f_equal. congruence.
  Qed.

  Theorem step_pools m w w' uid ag : egood m w -> agent_step so w uid = Ok w' -> get (w_agents w) uid = Some ag -> a_profile ag = NonMyopic ->
    w_agents w' = w_agents w \/
    exists new ps, plays w' uid (agent_set_strategy (Some new) ag) new /\ Forall2 (fun e p => active w' (fst e) p /\ p_owner p = uid) (s_owned new) ps /\
      forall i p, nth_error ps i = Some p -> priced_for w' uid (Z.of_nat i + 1) p.
  Proof.
    intros G H Ga Pr. destruct (exact_step False False False so SO m w uid w' G H) as [G' [(w2 & _ & Ea & _)|(ag' & st & w2 & new & w3 & Ga' & Gst & I2 & E & M & X & HS & HU & Ew)]]; [now left|]. right.
    rewrite Ga in Ga'. injection Ga' as <-. assert (I := g_inv _ _ _ _ _ G). assert (I' := g_inv _ _ _ _ _ G'). destruct (proj2 (g_ok _ _ _ _ _ G) uid ag Ga) as [Aid Ast]. destruct (Ast st Gst) as [Na No].
    assert (Hn : a_new ag = None) by (now apply (g_new _ _ _ _ _ G uid ag)).
    assert (Pl : plays w' uid (agent_set_strategy (Some new) ag) new).
    { rewrite Ew. split; [|reflexivity]. cbn. rewrite (x_self _ _ _ _ _ X). f_equal. destruct ag; cbn in *. now rewrite Hn. }
    assert (Eal : forall id, al_of w (a_id ag) id = get (s_alloc st) id) by (intros; unfold al_of; now rewrite Aid, Ga, Gst).
    assert (Eow : forall id, ow_of w (a_id ag) id = get (s_owned st) id) by (intros; unfold ow_of; now rewrite Aid, Ga, Gst).
    (* the move is the one the agent chose *)
    unfold update_strategy, the_agent in HU. rewrite Ga in HU. cbn [of_option bind] in HU. rewrite Pr in HU. unfold the_strategy in HU. rewrite Gst in HU. cbn [of_option bind] in HU.
    apply bind_ok in HU as (cu & _ & HU). apply bind_ok in HU as (eu & _ & HU). apply bind_ok in HU as ([w1 dst] & Hd & HU). apply bind_ok in HU as (du & _ & HU).
    apply bind_ok in HU as ([[w2' ou] ost] & Ho & HU). apply Ok_inj in HU.
    assert (Eh : w_heap w2' = w_heap w2) by exact (f_equal w_heap HU).
    assert (Ek : pick_move (augmented_utility w cu eu) (du, dst) (ou, ost) = Some new).
    { assert (Z := f_equal (fun x => get (w_agents x) uid) HU). cbn in Z. rewrite !get_set_eq in Z. now injection Z. }
    destruct (delegation_move_spec QcA_ord MP_Qc nonneg F3 True (E_NP_upd False False) E_TG_z m (al_of w) (ow_of w) ag st Gst Eal Na w (a_stake ag) w1 dst I Hd) as (I1 & E1 & En1 & Es1 & O1 & _).
    assert (Cs : new = dst \/ ost = Some new).
    { unfold pick_move in Ek. cbn [fst snd] in Ek. destruct ost as [op|]; cbn [snd] in Ek; [|left; destruct (ltb _ du); cbn in Ek; congruence].
      destruct (ltb (augmented_utility w cu eu) du); cbn [fst snd] in Ek; match type of Ek with (if ?b then _ else _) = _ => destruct b end; first [right; congruence | left; congruence]. }
    destruct Cs as [-> | ->].
    { exists dst, []. split; [assumption|]. rewrite O1. split; [constructor|]. intros [|i] p J; discriminate. }
    unfold choose_pool_strategy in Ho. apply bind_ok in Ho as ([t ms] & Hs & Ho). destruct (Z.ltb_spec 0 t); [|discriminate]. apply bind_ok in Ho as ([wk d] & Hk & Ho).
    apply bind_ok in Ho as ([w2b new'] & Hm & Ho). apply bind_ok in Ho as (x & _ & Ho). injection Ho as -> -> ->.
    assert (Hs' := Hs). apply search_ok in Hs' as [(v & Hms) Hr]. assert (Hms' := Hms). apply (margins_src (A := QcA) nonneg F3 True E_TG_d E_TG_z (E_TG_np False False) m (al_of w) (ow_of w)) in Hms' as [Fm Lm]; [|assumption].
    assert (Lm' := Lm ltac:(lia)). clear Lm.
    assert (Hk1 : (1 <= t <= r_k (w_rss w1))%Z).
    { destruct (Z.le_gt_cases 1 (r_k (w_rss w1))) as [K|K]; [now apply Hr|]. exfalso. apply search_empty in Hs; [|lia]. assert ((1 + r_k (w_rss w1)) / 2 < 1)%Z by (apply Z.div_lt_upper_bound; lia). lia. }
    destruct (operator_move_spec QcA_ord MP_Qc so SO nonneg F3 True (E_NP_upd False False) E_TG_z m _ _ ag st Gst Eal Eow Na No w1 t wk d ms w2' new I1 ltac:(lia) Fm Lm' Hk Hm) as (I2b & E2b & (pledge & cost & Hp & Hc & Nd & Ln & Hmade & _)).
    assert (Car : carries w2' (map snd (s_owned new)) ms).
    { assert (OF := owned_fresh F3 True m _ _ ag st Eow w1 I1). destruct (pools_to_keep_spec so SO w1 ag st t wk d (i_fresh _ _ _ _ _ _ I1) Gst No) as (X1 & Es & Nk & Inc & Len & Hd'); [intros id r J; now destruct (OF id r J) | exact Hk |].
      assert (Hin : forall id r, In (id, r) d -> exists p, get (w_heap wk) r = Some p /\ p_id p = id /\ id <= w_idseq wk /\ r < w_next wk).
      { intros id r J. apply In_get in J; [|assumption]. destruct (Hd' id r J) as (r0 & p & J1 & J2 & J3 & J4). destruct (OF _ _ J1) as (_ & K1 & p' & G1 & K2 & _). rewrite J2 in G1. injection G1 as <-. exists p. rewrite Es. repeat split; try assumption; lia. }
      apply (move_margins wk ag t d ms w2' new); [|intros id r J; destruct (Hin id r J) as (_ & _ & _ & ? & ?); now split | rewrite Len by lia; lia | assumption | assumption].
      clear - Nk Hin. induction d as [|[id r] d IH]; [constructor|]. cbn in Nk. apply NoDup_cons_iff in Nk as [N1 N2]. cbn. constructor.
      - intros J. apply N1. apply in_map_iff in J as ([id' r'] & Er & J). cbn in Er. subst r'. destruct (Hin id r (or_introl eq_refl)) as (p & K1 & K2 & _). destruct (Hin id' r (or_intror J)) as (p' & K1' & K2' & _).
        replace id with id' by congruence. now apply (in_map fst) in J.
      - apply IH; [assumption|]. intros; apply Hin; now right. }
    destruct (margins_fit w1 ag m (i_rank _ _ _ _ _ _ I1)) with (n := t) (ms := ms) (u := v) as (pledge' & cost' & pp & Hp' & Hc' & Hpp & Fit); [| assumption | assumption | assumption |].
    { intros r p J Gp. apply In_values in J as (id & J); [|exact (i_nd _ _ _ _ _ _ I1)]. destruct (i_reg _ _ _ _ _ _ I1 id r J) as (p' & Gp' & _ & _ & _ & _ & Fp & _). rewrite Gp in Gp'. injection Gp' as <-.
      rewrite (pf_des _ _ _ _ Fp). unfold desirability. rewrite pmax_max. apply Qcmax_r. }
    rewrite Hp in Hp'. injection Hp' as <-. rewrite Hc in Hc'. injection Hc' as <-.
    assert (Er : w_rss w' = w_rss w1). { rewrite Ew. cbn. destruct (x_par _ _ _ _ _ X) as (-> & _). transitivity (w_rss w); [apply E | symmetry; apply E1]. }
    (* each pool of the move, as it stands afterwards *)
    assert (Each : forall id r mg, get (s_owned new) id = Some r -> (exists p, get (w_heap w2') r = Some p /\ p_margin p = mg) ->
      exists p, (active w' id p /\ p_owner p = uid) /\ get (w_heap w') r = Some p /\ p_margin p = mg /\ p_pp p = pp /\ p_des p = desirability (A := QcA) mg pp).
    { intros id r mg J (p & Gp & Em). destruct (Hmade id r J) as (_ & p' & Gp' & Ip & Op & (_ & _ & _ & Q1 & Q2 & _) & _). rewrite Gp in Gp'. injection Gp' as <-. rewrite Hpp in Q1. apply Ok_inj in Q1.
      rewrite Eh in Gp. destruct (HS r p Gp) as (p3 & Gp3 & S). apply static_des in S as (S1 & S2 & S3 & S4 & S5). exists p3. rewrite Ew. cbn [w_heap with_idle].
      assert (Ow : ow_of w' uid id = Some r). { destruct Pl as [P1 P2]. unfold ow_of. now rewrite P1, P2. } destruct (i_own _ _ _ _ _ _ I' uid id r Ow) as [G1 _]. rewrite Ew in G1.
      split; [split; [now exists r | congruence]|]. split; [exact Gp3|]. split; [congruence|]. split; [congruence|]. rewrite S2, Q2, Em. now rewrite Q1. }
    exists new. assert (Ps : exists ps, Forall2 (fun e p => active w' (fst e) p /\ p_owner p = uid) (s_owned new) ps /\ Forall2 (fun mg p => p_margin p = mg /\ p_pp p = pp /\ p_des p = desirability (A := QcA) mg pp) ms ps).
    { assert (Hin : forall id r, In (id, r) (s_owned new) -> get (s_owned new) id = Some r) by (intros; now apply In_get).
      assert (Gen : forall l ms, (forall id r, In (id, r) l -> In (id, r) (s_owned new)) -> carries w2' (map snd l) ms ->
        exists ps, Forall2 (fun e p => active w' (fst e) p /\ p_owner p = uid) l ps /\ Forall2 (fun mg p => p_margin p = mg /\ p_pp p = pp /\ p_des p = desirability (A := QcA) mg pp) ms ps).
      { clear - Each Hin. induction l as [|[id r] l IH]; intros ms Sub C; inversion C as [|? y ? ms' H1 H3]; subst.
        - exists []. split; constructor.
        - destruct (IH _ (fun i r0 J => Sub i r0 (or_intror J)) H3) as (ps & A1 & A2). destruct (Each id r y (Hin id r (Sub id r (or_introl eq_refl))) H1) as (p & B1 & _ & B2). exists (p :: ps). split; constructor; assumption. }
      apply (Gen (s_owned new)); [auto | exact Car]. }
    destruct Ps as (ps & A1 & A2). exists ps. split; [assumption|]. split; [assumption|]. intros i p J.
    assert (exists mg, nth_error ms i = Some mg /\ p_margin p = mg /\ p_pp p = pp /\ p_des p = desirability (A := QcA) mg pp) as (mg & Jm & B1 & B2 & B3).
    { clear - A2 J. revert i J. induction A2; intros [|i] J; try discriminate; [injection J as ->; eexists; split; [reflexivity | assumption] | now apply IHA2]. }
    assert (Ft : fitting w1 (a_id ag) pp (Z.of_nat i + 1) mg).
    { assert (Z : forall l ms, Forall2 (fitting w1 (a_id ag) pp) l ms -> forall i mg, nth_error ms i = Some mg -> exists z, nth_error l i = Some z /\ fitting w1 (a_id ag) pp z mg).
      { clear. induction 1 as [|z y l ms F _ IH]; intros [|i] mg J; try discriminate; [injection J as <-; exists z; split; [reflexivity | exact F] | now apply IH]. }
      destruct (Z _ _ Fit i mg Jm) as (z & Jz & Fz). unfold zrange in Jz. assert (Li : i < Z.to_nat (t + 1 - 1)). { rewrite <- (seq_length (Z.to_nat (t + 1 - 1)) 0), <- (map_length (fun i => (1 + Z.of_nat i)%Z)). apply nth_error_Some. congruence. }
      rewrite (map_nth_error _ i _ (d := i)) in Jz; [injection Jz as <-; now rewrite Z.add_comm|]. rewrite nth_error_nth' with (d := 0) by (now rewrite seq_length). now rewrite seq_nth. }
    rewrite Aid in Ft. assert (Sm := others_same m w w' w1 w2 w3 uid ag new G G' ltac:(rewrite <- Aid; exact E1) E X Ew (inv_ids _ _ _ _ I1)).
    unfold priced_for, fitting in *. rewrite B1, B2, B3, Er, (Sm (Qc_leb (desirability (A := QcA) mg pp))), (Sm (Qc_ltb (pp - boost (a := QcA)))). exact Ft.
  Qed.
End Step60.

(** Whenever a non-myopic agent changes its strategy, the first pool of its new strategy is at least as desirable as all but k - 1 of the pools of the other
    agents, the second one as all but k - 2, and so on, unless even a margin of zero would not do; in that case the margin is zero. *)
Theorem C60_operator_margins : forall so g profiles stakes costs (s0 : sim QcA) w w' uid ag, set_order so -> init g profiles stakes costs = Ok s0 -> one_at_a_time g -> visible so s0 w ->
  agent_step so w uid = Ok w' -> get (w_agents w) uid = Some ag -> a_profile ag = NonMyopic ->
  w_agents w' = w_agents w \/
  exists new ps, plays w' uid (agent_set_strategy (Some new) ag) new /\ Forall2 (fun e p => active w' (fst e) p /\ p_owner p = uid) (s_owned new) ps /\
    forall i p, nth_error ps i = Some p -> priced_for w' uid (Z.of_nat i + 1) p.
Proof.
  intros so g profiles stakes costs s0 w w' uid ag SO H1 H2 V H Ga Pr. destruct (exact_all False False False so SO _ _ _ _ _ _ H1 H2 (inputs_none _ _) V) as [G _].
  exact (step_pools so SO _ w w' uid ag G H Ga Pr).
Qed.

(** An operator of a single pool brings it to the first k places, if it can. *)
Theorem C60_single_pool_in_the_top_k : forall so g profiles stakes costs (s0 : sim QcA) w w' uid ag new id p, set_order so -> init g profiles stakes costs = Ok s0 -> one_at_a_time g -> visible so s0 w ->
  agent_step so w uid = Ok w' -> get (w_agents w) uid = Some ag -> a_profile ag = NonMyopic -> w_agents w' <> w_agents w ->
  plays w' uid (agent_set_strategy (Some new) ag) new -> keys (s_owned new) = [id] -> active w' id p ->
  (Z.of_nat (competitors w' id (fun q => Qc_leb (p_des p) (p_des q))) <= r_k (w_rss w') - 1)%Z \/
  (p_margin p = 0%Qc /\ ((p_pp p < boost (a := QcA))%Qc \/ (r_k (w_rss w') <= Z.of_nat (competitors w' id (fun q => Qc_ltb (p_pp p - boost (a := QcA)) (p_des q))))%Z)).
Proof.
  intros so g profiles stakes costs s0 w w' uid ag new id p SO H1 H2 V H Ga Pr Ne Pl Kn Ap. destruct (exact_all False False False so SO _ _ _ _ _ _ H1 H2 (inputs_none _ _) V) as [G _].
  destruct (step_pools so SO _ w w' uid ag G H Ga Pr) as [?|(new' & ps & Pl' & F & Q)]; [contradiction|].
  assert (new' = new) by (destruct Pl as [P _], Pl' as [P' _]; rewrite P in P'; injection P' as P'; congruence). subst new'.
  destruct (exact_step False False False so SO _ w uid w' G H) as [G' _]. assert (I' := g_inv _ _ _ _ _ G').
  destruct (s_owned new) as [|[id' r'] [|]] eqn:Eo; try discriminate. injection Kn as ->. inversion F as [|? q ? ? (Aq & Oq) F']; subst. inversion F'; subst.
  assert (q = p) by (destruct Aq as (r1 & A1 & A2), Ap as (r2 & B1 & B2); cbn in A1; congruence). subst q.
  specialize (Q 0 p eq_refl). cbn [Z.of_nat Z.add] in Q.
  assert (Same : forall f, competitors w' id f = rivals w' (p_owner p) f).
  { intros f. unfold competitors, rivals. f_equal. apply filter_ext_in. intros q J. f_equal. f_equal. apply pools_of_In in J as (idq & J); [|exact (i_nd _ _ _ _ _ _ I')].
    destruct (Nat.eqb_spec (p_id q) id) as [E|N], (Nat.eqb_spec (p_owner q) (p_owner p)) as [E'|N']; try reflexivity; exfalso.
    - apply N'. assert (idq = id) by (rewrite <- E; symmetry; now apply (inv_ids _ _ _ _ I')). subst idq. destruct J as (r1 & A1 & A2), Ap as (r2 & B1 & B2). congruence.
    - apply N. destruct (proj2 (good_operates _ _ _ _ _ G' (p_owner p) idq q) (conj J E')) as (ag' & st' & r & (P1 & P2) & P3 & P4). destruct Pl as [P P']. rewrite P in P1. injection P1 as <-. cbn in P2. injection P2 as <-.
      rewrite Eo in P3. cbn in P3. destruct (Nat.eqb_spec idq id); [|discriminate]. subst idq. now apply (inv_ids _ _ _ _ I'). }
  rewrite !Same. destruct Q as [Q|(Q1 & [Q2|Q2])]; [left; exact Q | right; split; [assumption | now left] | right; split; [assumption | right]]. lia.
Qed.

(** Not so for several pools: the documentation of choose_pool_strategy says that the margins are such that all of them end up in the top k.  In a first round,
    with k = 2, the last agent opens two pools, asks for a positive margin for one of them, and that pool is behind two pools that are more desirable. *)
Definition crowd_args : args QcA :=
  mkArgs (A := QcA) (Single 3%Z) (Single (Q2Qc 2)) (Single (Q2Qc (3#10))) (Single (Q2Qc 0)) (Single (Q2Qc (1#1000000))) (Single 100%Z) (Single (Q2Qc (1#2))) (Single Sequential) (Single true) 0 (Q2Qc 0) false 2.
Definition crowd_profiles := [Myopic; Myopic; NonMyopic].
Definition crowd_stakes : list Qc := [Q2Qc (3#10); Q2Qc (3#10); Q2Qc (4#10)].
Definition crowd_costs : list Qc := [Q2Qc (2#10); Q2Qc (3#10); Q2Qc (1#1000)].
(** the state the last agent of the first round finds *)
Definition crowd : res (sim QcA * world QcA * world QcA) :=
  let! s0 := init crowd_args crowd_profiles crowd_stakes crowd_costs in
  let! w := foldM (do_event so_id) [EStep 0; EStep 1] (s_w s0) in
  let! w' := agent_step so_id w 2 in Ok (s0, w, w').
Lemma crowd_check (c : sim QcA -> world QcA -> world QcA -> bool) : match crowd with Ok (s0, w, w') => c s0 w w' | Err _ => false end = true ->
  match init crowd_args crowd_profiles crowd_stakes crowd_costs with Ok s0 => match round_events (c_sched (s_c s0)) no_choice (keys (w_agents (s_w s0))) with Ok [EStep 0; EStep 1; EStep 2] => true | _ => false end | Err _ => false end = true ->
  exists s0 w w', init crowd_args crowd_profiles crowd_stakes crowd_costs = Ok s0 /\ visible so_id s0 w /\ agent_step so_id w 2 = Ok w' /\ c s0 w w' = true.
Proof.
  unfold crowd. destruct (init crowd_args crowd_profiles crowd_stakes crowd_costs) as [s0|]; cbn [bind]; [|discriminate]. destruct (foldM _ _ _) as [w|] eqn:Ef; cbn [bind]; [|discriminate].
  destruct (agent_step so_id w 2) as [w'|] eqn:Es; cbn [bind]; [|discriminate]. intros H E. exists s0, w, w'. split; [reflexivity|]. split; [|now split].
  destruct (round_events _ _ _) as [evs|] eqn:Er; [|discriminate]. apply (vis_within _ _ s0 s0 no_choice [EStep 0; EStep 1] [EStep 2] w); [constructor | | exact Ef]. rewrite Er.
  repeat match type of E with match ?x with _ => _ end = true => destruct x; try discriminate end. reflexivity.
Qed.
Definition crowd_test (s0 : sim QcA) (w w' : world QcA) : bool :=
  match get (w_agents w) 2 with Some ag => match a_profile ag with NonMyopic => match a_new ag with None => true | _ => false end | _ => false end | None => false end &&
  agent_is w' 2 (fun ag st => Nat.eqb (length (s_owned st)) 2 && inb 4 (keys (s_owned st)) && inb 5 (keys (s_owned st)) && match a_new ag with None => true | _ => false end) && (r_k (w_rss w') =? 2)%Z &&
  pool_is w' 4 (fun p => Qc_ltb 0 (p_margin p) && Nat.leb 2 (competitors w' 4 (fun q => Qc_ltb (p_des p) (p_des q)))) &&
  pool_is w' 5 (fun p => Qc_ltb 0 (p_margin p) && Nat.leb (rivals w' 2 (fun q => Qc_leb (p_des p) (p_des q))) 0).
Lemma crowd_run : exists s0 w w', init crowd_args crowd_profiles crowd_stakes crowd_costs = Ok s0 /\ visible so_id s0 w /\ agent_step so_id w 2 = Ok w' /\ crowd_test s0 w w' = true.
Proof. apply crowd_check; vm_compute; reflexivity. Qed.
Theorem C60_all_pools_in_the_top_k_refuted : exists so g profiles stakes costs (s0 : sim QcA) w w' uid ag new id p, set_order so /\ init g profiles stakes costs = Ok s0 /\ one_at_a_time g /\ visible so s0 w /\
  agent_step so w uid = Ok w' /\ (exists ag0, get (w_agents w) uid = Some ag0 /\ a_profile ag0 = NonMyopic) /\ r_k (w_rss w') = 2%Z /\
  plays w' uid ag new /\ length (s_owned new) = 2 /\ In id (keys (s_owned new)) /\ active w' id p /\ (0 < p_margin p)%Qc /\ 2 <= competitors w' id (fun q => Qc_ltb (p_des p) (p_des q)).
Proof.
  destruct crowd_run as (s0 & w & w' & H1 & V & H & T). unfold crowd_test in T. apply andb_true_iff in T as [T _]. apply andb_true_iff in T as [T T4]. apply andb_true_iff in T as [T Tk]. apply andb_true_iff in T as [T1 T2].
  apply agent_is_plays in T2 as (ag & st & Pl & T2). apply pool_is_active in T4 as (p & Ap & T4). apply andb_true_iff in T4 as [T4 T5]. apply andb_true_iff in T2 as [T2 _]. apply andb_true_iff in T2 as [T2 _]. apply andb_true_iff in T2 as [T2 T3].
  exists so_id, crowd_args, crowd_profiles, crowd_stakes, crowd_costs, s0, w, w', 2, ag, st, 4, p. split; [apply so_id_set_order|]. split; [assumption|]. split; [constructor; [right; reflexivity | constructor]|]. split; [assumption|]. split; [assumption|].
  split. { destruct (get (w_agents w) 2) as [ag0|]; [|discriminate]. exists ag0. split; [reflexivity|]. destruct (a_profile ag0); try discriminate. reflexivity. }
  split; [now apply Z.eqb_eq in Tk|]. split; [assumption|]. split; [now apply Nat.eqb_eq in T2|]. split; [now apply inb_spec in T3|]. split; [assumption|]. split; [destruct (Qc_ltb_spec 0 (p_margin p)); [assumption | discriminate] | now apply Nat.leb_le in T5].
Qed.

(** C60_operator_margins speaks about this activation: the agent opens two pools, the second of them asks for a positive margin and no pool of another agent is as desirable. *)
Example C60_instance : exists (s0 : sim QcA) w w' ag p, init crowd_args crowd_profiles crowd_stakes crowd_costs = Ok s0 /\ one_at_a_time crowd_args /\ visible so_id s0 w /\ agent_step so_id w 2 = Ok w' /\
  get (w_agents w) 2 = Some ag /\ a_profile ag = NonMyopic /\ active w' 5 p /\ (0 < p_margin p)%Qc /\ rivals w' 2 (fun q => Qc_leb (p_des p) (p_des q)) = 0.
Proof.
  destruct crowd_run as (s0 & w & w' & H1 & V & H & T). unfold crowd_test in T. apply andb_true_iff in T as [T T5]. apply andb_true_iff in T as [T T4]. apply andb_true_iff in T as [T Tk]. apply andb_true_iff in T as [T1 T2].
  apply pool_is_active in T5 as (p & Ap & T5). apply andb_true_iff in T5 as [T5 T6]. destruct (get (w_agents w) 2) as [ag|] eqn:Ga; [|discriminate].
  exists s0, w, w', ag, p. split; [assumption|]. split; [constructor; [right; reflexivity | constructor]|]. repeat (split; [assumption|]). split; [destruct (a_profile ag); try discriminate; reflexivity|].
  split; [assumption|]. split; [destruct (Qc_ltb_spec 0 (p_margin p)); [assumption | discriminate] | apply Nat.leb_le in T6; lia].
Qed.
